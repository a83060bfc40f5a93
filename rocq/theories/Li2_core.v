(** * Real Li2 in IEEE arithmetic: the rational cores, the constants, and the assembly for the four precisions *)
From Coq Require Import ZArith Reals Bool Lia Lra Psatz List.
From Coquelicot Require Import Coquelicot.
From Interval Require Import Tactic.
From Flocq Require Import Core Relative Sterbenz Mult_error IEEE754.BinarySingleNaN.
From Verif Require Import Num NumR Eval_R NumB NumB_facts Proof_Float Libm Ferr FerrB Fcalc Polylog Polylog_eqs Fourier Consts Cl_pieces Model_LiR Proof_Li2 Li2_ieee.
Import ListNotations.
Local Open Scope R_scope.

Section E.
Variables prec emax : Z.
Context (Hp : Prec_gt_0 prec) (He : Prec_lt_emax prec emax).
Hypothesis prec1 : (16 < prec)%Z.
Hypothesis em : (128 <= emax)%Z.
Hypothesis em2 : (142 <= emax + prec)%Z.
Hypothesis pe : (prec <= emax - 4)%Z.
Notation fl := (binary_float prec emax).
Notation fexp := (SpecFloat.fexp prec emax).
Notation rnd := (round radix2 fexp ZnearestE).
Variable L : libm prec emax.
Notation N := (NumB prec emax Hp He L).
Notation u := (u prec).
Notation eta := (eta prec emax).
Notation BIG := (BIG emax).
Notation A := (A prec emax).

Lemma ratio_core (y r s pf qf : fl) P Q cp cq : is_finite y = true -> 0 <= B2R y <= / 2 -> is_finite r = true -> Rabs (B2R r) <= 2 ^ 60 ->
  is_finite s = true -> (B2R s = 1 \/ B2R s = -1) -> is_finite pf = true -> is_finite qf = true ->
  0 < P <= 8 / 5 * Q -> / 40 <= Q <= 20 -> Rabs (B2R pf - P) <= cp * u * P -> Rabs (B2R qf - Q) <= cq * u * Q -> 0 <= cp -> 0 <= cq -> cp * u <= / 100 -> cq * u <= / 100 ->
  A (add N r (div N (mul N (mul N s y) pf) qf)) (B2R r + B2R s * (B2R y * (P / Q))) ((5 / 3 * (cp + cq) + 6) * u * B2R y + u * Rabs (B2R r) + 45 * eta).
Proof.
  intros Fy Hy Fr Hr Fs Hs Fp Fq HP HQ Ep Eq C0 C1 C2 C3. 
  assert (U : 0 < u <= / 2 ^ 17) by (apply u17; lia). assert (T : 0 < eta <= u / 10 ^ 30) by (apply eta30; lia). assert (BG : 2 ^ 100 <= BIG) by (apply BIG100; lia).
  set (Y := B2R y) in *. set (pv := B2R pf) in *. set (qv := B2R qf) in *.
  assert (As : Rabs (B2R s) = 1) by (destruct Hs as [-> | ->]; [apply Rabs_R1|rewrite Rabs_left; lra]).
  assert (Pb : 99 / 100 * P <= pv <= 101 / 100 * P). { apply Rabs_le_between in Ep. assert (cp * u * P <= / 100 * P) by (apply Rmult_le_compat_r; lra). lra. }
  assert (Qb : 99 / 100 * Q <= qv <= 101 / 100 * Q). { apply Rabs_le_between in Eq. assert (cq * u * Q <= / 100 * Q) by (apply Rmult_le_compat_r; lra). lra. }
  assert (Gv : 0 < pv / qv <= 5 / 3). { split; [apply Rdiv_lt_0_compat; lra|]. apply (Rmult_le_reg_r qv); [lra|]. unfold Rdiv. rewrite Rmult_assoc, Rinv_l by lra. lra. }
  assert (Iq : 0 < / qv <= 41). { split; [apply Rinv_0_lt_compat; lra|]. apply (Rmult_le_reg_l qv); [lra|]. rewrite Rinv_r by lra. lra. }
  (* s * y *)
  destruct (mul_r prec emax Hp He ltac:(lia) ltac:(lia) ltac:(lia) L s y Fs Fy) as [F1 V1]. { rewrite Rabs_mult, As, Rabs_pos_eq by (fold Y; lra). fold Y. lra. }
  assert (E1 : B2R (mul N s y) = B2R s * Y). { rewrite V1. fold Y. destruct Hs as [-> | ->].
    - rewrite Rmult_1_l. apply round_generic; [apply valid_rnd_N|apply (generic_format_B2R prec emax y)].
    - replace (-1 * Y) with (- Y) by ring. apply round_generic; [apply valid_rnd_N|apply generic_format_opp, (generic_format_B2R prec emax y)]. }
  (* * p *)
  set (w := B2R s * Y) in *. assert (Aw : Rabs w = Y) by (unfold w; rewrite Rabs_mult, As, Rabs_pos_eq by lra; ring).
  assert (Ypv : 0 <= Y * pv <= 20) by nra.
  destruct (mul_r prec emax Hp He ltac:(lia) ltac:(lia) ltac:(lia) L (mul N s y) pf F1 Fp) as [F2 V2]. { rewrite E1. fold pv. rewrite Rabs_mult, Aw, Rabs_pos_eq by lra. lra. }
  rewrite E1 in V2. fold pv in V2. pose proof (rnd_err prec emax Hp (w * pv)) as R2. fold u eta in R2. rewrite <- V2, Rabs_mult, Aw, (Rabs_pos_eq pv) in R2 by lra.
  set (t2 := mul N (mul N s y) pf) in *.
  (* / q *)
  set (g := pv / qv) in *. assert (D3 : Rabs (B2R t2 / qv - w * g) <= u * (Y * g) + 41 * eta).
  { replace (B2R t2 / qv - w * g) with ((B2R t2 - w * pv) * / qv) by (unfold g; field; lra). rewrite Rabs_mult, (Rabs_pos_eq (/ qv)) by lra.
    apply Rle_trans with ((u * (Y * pv) + eta) * / qv); [apply Rmult_le_compat_r; lra|]. replace ((u * (Y * pv) + eta) * / qv) with (u * (Y * g) + / qv * eta) by (unfold g; field; lra). assert (/ qv * eta <= 41 * eta) by (apply Rmult_le_compat_r; lra). lra. }
  assert (Yg : 0 <= Y * g <= 5 / 3 * Y) by nra. assert (uY : 0 <= u * Y) by nra.
  assert (uYg : 0 <= u * (Y * g) <= 5 / 3 * (u * Y)) by (split; [apply Rmult_le_pos; lra|replace (5 / 3 * (u * Y)) with (u * (5 / 3 * Y)) by ring; apply Rmult_le_compat_l; lra]).
  assert (Awg : Rabs (w * g) = Y * g) by (rewrite Rabs_mult, Aw, Rabs_pos_eq by lra; reflexivity).
  assert (uY1 : u * Y <= Y / 2 ^ 17) by (unfold Rdiv; rewrite (Rmult_comm Y); apply Rmult_le_compat_r; lra).
  assert (B3 : Rabs (B2R t2 / qv) <= 17 / 10 * Y + 41 * eta). { replace (B2R t2 / qv) with (w * g + (B2R t2 / qv - w * g)) by ring. eapply Rle_trans; [apply Rabs_triang|]. lra. }
  destruct (div_r prec emax Hp He ltac:(lia) ltac:(lia) ltac:(lia) L t2 qf F2 ltac:(fold qv; lra)) as [F3 V3]. { fold qv. lra. }
  fold qv in V3. pose proof (rnd_err prec emax Hp (B2R t2 / qv)) as R3. fold u eta in R3. rewrite <- V3 in R3. set (t3 := div N t2 qf) in *.
  assert (uB3 : u * Rabs (B2R t2 / qv) <= 17 / 10 * (u * Y) + eta / 2). { apply Rle_trans with (u * (17 / 10 * Y + 41 * eta)); [apply Rmult_le_compat_l; lra|]. assert (u * eta <= / 2 ^ 17 * eta) by (apply Rmult_le_compat_r; lra). lra. }
  assert (D4 : Rabs (B2R t3 - w * g) <= 340 / 100 * (u * Y) + 425 / 10 * eta). { replace (B2R t3 - w * g) with ((B2R t3 - B2R t2 / qv) + (B2R t2 / qv - w * g)) by ring. eapply Rle_trans; [apply Rabs_triang|]. lra. }
  assert (B4 : Rabs (B2R t3) <= 175 / 100 * Y + 43 * eta). { replace (B2R t3) with (w * g + (B2R t3 - w * g)) by ring. eapply Rle_trans; [apply Rabs_triang|]. lra. }
  (* + r *)
  assert (B5 : Rabs (B2R r + B2R t3) <= Rabs (B2R r) + 175 / 100 * Y + 43 * eta) by (eapply Rle_trans; [apply Rabs_triang|]; lra).
  destruct (add_r prec emax Hp He ltac:(lia) ltac:(lia) ltac:(lia) L r t3 Fr F3) as [F5 V5]. { lra. }
  pose proof (rnd_err prec emax Hp (B2R r + B2R t3)) as R5. fold u eta in R5. rewrite <- V5 in R5. split; [exact F5|].
  assert (uB5 : u * Rabs (B2R r + B2R t3) <= u * Rabs (B2R r) + 175 / 100 * (u * Y) + eta / 2). { apply Rle_trans with (u * (Rabs (B2R r) + 175 / 100 * Y + 43 * eta)); [apply Rmult_le_compat_l; lra|]. assert (u * eta <= / 2 ^ 17 * eta) by (apply Rmult_le_compat_r; lra). lra. }
  (* the ratio *)
  assert (D6 : Rabs (g - P / Q) <= 5 / 3 * (cp + cq) * u).
  { replace (g - P / Q) with (((pv - P) * Q + - (P * (qv - Q))) * (/ qv * / Q)) by (unfold g; field; lra). rewrite Rabs_mult.
    assert (I1 : 0 < / qv * / Q) by (apply Rmult_lt_0_compat; [lra|apply Rinv_0_lt_compat; lra]). rewrite (Rabs_pos_eq (/ qv * / Q)) by lra.
    apply Rle_trans with ((cp + cq) * u * P * Q * (/ qv * / Q)).
    - apply Rmult_le_compat_r; [lra|]. eapply Rle_trans; [apply Rabs_triang|]. rewrite Rabs_Ropp, !Rabs_mult, (Rabs_pos_eq Q), (Rabs_pos_eq P) by lra.
      assert (Rabs (pv - P) * Q <= cp * u * P * Q) by (apply Rmult_le_compat_r; lra). assert (P * Rabs (qv - Q) <= P * (cq * u * Q)) by (apply Rmult_le_compat_l; lra). lra.
    - replace ((cp + cq) * u * P * Q * (/ qv * / Q)) with (P * / qv * ((cp + cq) * u)) by (field; lra). replace (5 / 3 * (cp + cq) * u) with (5 / 3 * ((cp + cq) * u)) by ring.
      apply Rmult_le_compat_r; [apply Rmult_le_pos; lra|]. apply (Rmult_le_reg_r qv); [lra|]. rewrite Rmult_assoc, Rinv_l by lra. lra. }
  assert (D7 : Rabs (w * g - B2R s * (Y * (P / Q))) <= 5 / 3 * (cp + cq) * u * Y).
  { replace (w * g - B2R s * (Y * (P / Q))) with (w * (g - P / Q)) by (unfold w; ring). rewrite Rabs_mult, Aw, Rmult_comm. apply Rmult_le_compat_r; lra. }
  replace (B2R (add N r t3) - (B2R r + B2R s * (Y * (P / Q)))) with ((B2R (add N r t3) - (B2R r + B2R t3)) + ((B2R t3 - w * g) + (w * g - B2R s * (Y * (P / Q))))) by ring.
  eapply Rle_trans; [apply Rabs_triang|]. assert (Rabs ((B2R t3 - w * g) + (w * g - B2R s * (Y * (P / Q)))) <= 340 / 100 * (u * Y) + 425 / 10 * eta + 5 / 3 * (cp + cq) * u * Y) by (eapply Rle_trans; [apply Rabs_triang|]; lra).
  replace ((5 / 3 * (cp + cq) + 6) * u * Y) with (5 / 3 * (cp + cq) * u * Y + 6 * (u * Y)) by ring. lra.
Qed.

(** *** bounds for numerator and denominator from the checker *)
Definition relb (c : Z) (b : bnd) : bool := ((0 <? lo b) && (SH <=? 40 * lo b) && (hi b <=? 20 * SH) && (er b * 2 ^ prec * 1000 <=? c * lo b))%Z.
Lemma relb_ok c b v (f : fl) : relb c b = true -> rel prec emax b v f -> is_finite f = true /\ / 40 <= v <= 20 /\ Rabs (B2R f - v) <= IZR c / 1000 * u * v.
Proof.
  unfold relb. rewrite !andb_true_iff, Z.ltb_lt, !Z.leb_le. intros [[[H1 H2] H3] H4] (F & I & R). apply IZR_lt in H1. apply IZR_le in H2, H3, H4. rewrite !mult_IZR in *. fold sc in H2, H3. pose proof sc_pos as S0.
  split; [exact F|]. split; [split; apply (Rmult_le_reg_r sc); lra|]. assert (E : IZR (2 ^ prec) * u = 1).
  { unfold Fcalc.u. change (2 ^ prec)%Z with (Zpower radix2 prec). rewrite IZR_Zpower by lia. rewrite <- bpow_plus, Z.add_opp_diag_r. reflexivity. }
  assert (U : 0 < u) by apply bpow_gt_0. apply (Rmult_le_reg_r sc); [exact S0|]. eapply Rle_trans; [exact R|].
  assert (H5 : IZR (er b) * 1000 <= IZR c * IZR (lo b) * u). { apply (Rmult_le_compat_r u) in H4; [|lra]. replace (IZR (er b) * IZR (2 ^ prec) * 1000 * u) with (IZR (er b) * 1000 * (IZR (2 ^ prec) * u)) in H4 by ring. rewrite E in H4. lra. }
  destruct (Rle_lt_dec 0 (IZR c)) as [C0|C0].
  - assert (IZR c * IZR (lo b) * u <= IZR c * (v * sc) * u) by (apply Rmult_le_compat_r; [lra|apply Rmult_le_compat_l; lra]). lra.
  - exfalso. assert (0 <= IZR (er b)) by (eapply Rle_trans; [|exact R]; apply Rmult_le_pos; [apply Rabs_pos|lra]). assert (IZR c * IZR (lo b) * u < 0); [|lra].
    assert (0 < IZR (lo b) * u) by (apply Rmult_lt_0_compat; lra). rewrite Rmult_assoc. nra.
Qed.
Lemma poly_ok e n c (y : fl) : checkp prec e (grid 0 (2 ^ (39 - Z.of_nat n)) (2 ^ n)) (relb c) = true -> (n <= 39)%nat -> is_finite y = true -> 0 <= B2R y <= / 2 ->
  is_finite (evalN N (fun i => nth i [y] (B754_zero false)) e) = true /\ / 40 <= evalR (fun i => nth i [B2R y] 0) e <= 20 /\
  Rabs (B2R (evalN N (fun i => nth i [y] (B754_zero false)) e) - evalR (fun i => nth i [B2R y] 0) e) <= IZR c / 1000 * u * evalR (fun i => nth i [B2R y] 0) e.
Proof.
  intros C Hn Fy Hy. destruct (grid_cover 0 (2 ^ (39 - Z.of_nat n)) (2 ^ n) (B2R y)) as (l & h & I & B).
  - apply Z.pow_pos_nonneg; lia.
  - apply Nat.neq_0_lt_0, Nat.pow_nonzero. lia.
  - assert (E : (0 + 2 ^ (39 - Z.of_nat n) * Z.of_nat (2 ^ n))%Z = 549755813888%Z).
    { rewrite Nat2Z.inj_pow. change (Z.of_nat 2) with 2%Z. rewrite Z.add_0_l, <- Z.pow_add_r by lia. replace (39 - Z.of_nat n + Z.of_nat n)%Z with 39%Z by ring. reflexivity. }
    rewrite E. unfold s40. change (2 ^ 40)%Z with 1099511627776%Z. lra.
  - destruct (checkp_ok prec emax Hp He ltac:(lia) em em2 L e _ _ [xv l h] [B2R y] [y] C I eq_refl eq_refl) as (b & B1 & B2).
    + intros [|[|i]] Hi; cbn in Hi; try lia. cbn [nth]. apply rel_exact; [exact Fy|]. apply xv_rng. exact B.
    + exact (relb_ok c b _ _ B1 B2).
Qed.
Lemma zero_gen eP eQ : checkp prec (EDiv eP eQ) [[Bnd 0 0 0]] (fun b => (hi b <=? SH * 8 / 5)%Z) = true -> checkp prec eQ [[Bnd 0 0 0]] (fun b => (0 <? lo b)%Z) = true ->
  evalR (fun i => nth i [0] 0) eP <= 8 / 5 * evalR (fun i => nth i [0] 0) eQ.
Proof.
  intros C1 C2. assert (R0 : forall i, (i < length [Bnd 0 0 0])%nat -> rel prec emax (nth i [Bnd 0 0 0] (Bnd 0 0 0)) (nth i [0] 0) (nth i [B754_zero false] (B754_zero false))) by (intros [|i] Hi; [apply rel0|cbn in Hi; lia]).
  destruct (checkp_ok prec emax Hp He ltac:(lia) em em2 L _ _ _ [Bnd 0 0 0] [0] [B754_zero false] C1 (or_introl eq_refl) eq_refl eq_refl R0) as (b & B1 & B2 & B3 & _).
  destruct (checkp_ok prec emax Hp He ltac:(lia) em em2 L _ _ _ [Bnd 0 0 0] [0] [B754_zero false] C2 (or_introl eq_refl) eq_refl eq_refl R0) as (b' & B1' & B2' & B3' & _).
  cbn [evalR] in B3. set (p := evalR _ eP) in *. set (q := evalR _ eQ) in *. clearbody p q. apply Z.leb_le, IZR_le in B1. pose proof sc_pos as S0. destruct (floor_q (SH * 8) 5 ltac:(lia)) as [Q _]. rewrite (mult_IZR SH 8) in Q. fold sc in Q.
  apply Z.ltb_lt, IZR_lt in B1'. assert (q0 : 0 < q) by nra. assert (H : p / q <= 8 / 5) by nra. apply (Rmult_le_compat_r q) in H; [|lra]. unfold Rdiv in H at 1. rewrite Rmult_assoc, Rinv_l in H by lra. lra.
Qed.
Lemma Li2_up15 y : 0 <= y <= / 2 -> ReLi 2 y <= 3 / 2 * y.
Proof.
  intros Hy. destruct (Req_dec y 0) as [->|N0]; [rewrite (ReLi_0 2) by lia; lra|].
  destruct (MVT_gen (ReLi 2) 0 y (over_t (ReLi 1))) as (c & C1 & C2).
  - intros t Ht. apply ReLi_derive; [lia|]. left. unfold Rmin, Rmax in Ht. destruct (Rle_dec 0 y); lra.
  - intros t Ht. apply continuity_pt_filterlim. apply (ex_derive_continuous (ReLi 2)). eexists. apply ReLi_derive; [lia|]. left. unfold Rmin, Rmax in Ht. destruct (Rle_dec 0 y); lra.
  - rewrite (ReLi_0 2) in C2 by lia. rewrite !Rminus_0_r in C2. rewrite C2. apply Rmult_le_compat_r; [lra|]. rewrite Rmin_left, Rmax_right in C1 by lra.
    unfold over_t. destruct (Req_EM_T c 0); [lra|]. assert (E : ReLi 1 c = - ln (1 - c)) by (change (ReLi 1 c) with (- ln (Rabs (1 - c))); rewrite Rabs_pos_eq by lra; reflexivity). rewrite E.
    assert (L2 : - ln (1 - c) <= 3 / 2 * c).
    { rewrite <- ln_Rinv by lra. rewrite <- (ln_exp (3 / 2 * c)). apply ln_le; [apply Rinv_0_lt_compat; lra|]. apply Rle_trans with (1 + 3 / 2 * c + (3 / 2 * c) * (3 / 2 * c) / 2).
      - apply (Rmult_le_reg_l (1 - c)); [lra|]. rewrite Rinv_r by lra. nra.
      - pose proof (exp_ge_taylor (3 / 2 * c) 2 ltac:(lra)) as Z. cbn [sum_f_R0 pow fact Nat.mul Nat.add INR] in Z. lra. }
    apply (Rmult_le_reg_r c); [lra|]. unfold Rdiv at 1. rewrite Rmult_assoc, Rinv_l by lra. lra.
Qed.
(** the core of one precision: from the two checks and the accuracy of the rational function *)
Lemma core_gen (k1 : fl -> fl -> fl -> fl) ep eq n cp cq (g : R -> R) e K :
  (forall y r s, k1 y r s = add N r (div N (mul N (mul N s y) (evalN N (fun i => nth i [y] (B754_zero false)) ep)) (evalN N (fun i => nth i [y] (B754_zero false)) eq))) ->
  checkp prec ep (grid 0 (2 ^ (39 - Z.of_nat n)) (2 ^ n)) (relb cp) = true -> checkp prec eq (grid 0 (2 ^ (39 - Z.of_nat n)) (2 ^ n)) (relb cq) = true -> (n <= 39)%nat ->
  (forall y, 0 < y <= / 2 -> g y = y * (evalR (fun i => nth i [y] 0) ep / evalR (fun i => nth i [y] 0) eq) /\ Rabs (g y - ReLi 2 y) <= e * y) -> 0 <= e <= / 100 -> evalR (fun i => nth i [0] 0) ep <= 8 / 5 * evalR (fun i => nth i [0] 0) eq ->
  0 <= IZR cp -> 0 <= IZR cq -> IZR cp / 1000 * u <= / 100 -> IZR cq / 1000 * u <= / 100 -> (5 / 3 * (IZR cp / 1000 + IZR cq / 1000) + 6) * u + e <= K * u ->
  forall y r s : fl, is_finite y = true -> 0 <= B2R y <= / 2 -> is_finite r = true -> Rabs (B2R r) <= 2 ^ 60 -> is_finite s = true -> (B2R s = 1 \/ B2R s = -1) ->
  A (k1 y r s) (B2R r + B2R s * ReLi 2 (B2R y)) (K * u * B2R y + u * Rabs (B2R r) + 45 * eta).
Proof.
  intros EK CP CQ Hn HG He0 P0 Hp0 Hq0 Hp1 Hq1 HK y r s Fy Hy Fr Hr Fs Hs.
  destruct (poly_ok ep n cp y CP Hn Fy Hy) as (FP & IP & RP). destruct (poly_ok eq n cq y CQ Hn Fy Hy) as (FQ & IQ & RQ). rewrite EK.
  set (P := evalR (fun i => nth i [B2R y] 0) ep) in *. set (Q := evalR (fun i => nth i [B2R y] 0) eq) in *. set (Y := B2R y) in *.
  assert (G0 : Rabs (Y * (P / Q) - ReLi 2 Y) <= e * Y).
  { destruct (Req_dec Y 0) as [Z|Z]; [rewrite Z, (ReLi_0 2) by lia; rewrite Rmult_0_l, Rminus_eq_0, Rabs_R0; lra|]. destruct (HG Y ltac:(lra)) as [G1 G2]. fold P Q in G1. rewrite <- G1. exact G2. }
  assert (IQ0 : 0 < / Q) by (apply Rinv_0_lt_compat; lra).
  assert (PQ : P <= 8 / 5 * Q).
  { destruct (Req_dec Y 0) as [Z|Z]; [unfold P, Q; rewrite Z; exact P0|].
 apply Rabs_le_between in G0. pose proof (Li2_up15 Y Hy). assert (Y * (P / Q) <= Y * (8 / 5)) by nra. apply Rmult_le_reg_l in H0; [|lra]. apply (Rmult_le_compat_r Q) in H0; [|lra]. unfold Rdiv in H0 at 1. rewrite Rmult_assoc, Rinv_l in H0 by lra. lra. }
  destruct (ratio_core y r s _ _ P Q (IZR cp / 1000) (IZR cq / 1000) Fy Hy Fr Hr Fs Hs FP FQ ltac:(lra) ltac:(lra) RP RQ ltac:(lra) ltac:(lra) Hp1 Hq1) as [F C]. fold Y in C. split; [exact F|].
    assert (D : Rabs (B2R s * (Y * (P / Q)) - B2R s * ReLi 2 Y) <= e * Y). { rewrite <- Rmult_minus_distr_l, Rabs_mult. replace (Rabs (B2R s)) with 1 by (destruct Hs as [-> | ->]; [rewrite Rabs_R1|rewrite Rabs_left by lra]; lra). lra. }
    match goal with |- Rabs (?f - _) <= _ => replace (f - (B2R r + B2R s * ReLi 2 Y)) with ((f - (B2R r + B2R s * (Y * (P / Q)))) + (B2R s * (Y * (P / Q)) - B2R s * ReLi 2 Y)) by ring end.
    eapply Rle_trans; [apply Rabs_triang|]. assert (((5 / 3 * (IZR cp / 1000 + IZR cq / 1000) + 6) * u + e) * Y <= K * u * Y) by (apply Rmult_le_compat_r; lra). lra.
Qed.
End E.
