(** * Parity of the Clausen and Glaisher-Clausen functions, bit for bit *)
From Coq Require Import ZArith Reals List Bool Lia Lra.
From Flocq Require Import Core IEEE754.BinarySingleNaN.
From Verif Require Import Num Outcome NumR NumB NumB_facts Libm Model_Tables Model_Zeta Model_Cl16 Model_SlPoly Model_Cl
  Proof_Int Laws_nan Proof_NaN Proof_Special Proof_Float.
Import ListNotations.
Local Open Scope Z_scope.

(** ** any arithmetic: negative arguments *)
Section G.
Variable N : num.
Hypothesis opp1 : opp N (lit N 1 0) = lit N (-1) 0.
Hypothesis oppm1 : opp N (lit N (-1) 0) = lit N 1 0.
Hypothesis mulm1 : forall h, mul N (lit N (-1) 0) h = opp N (mul N (lit N 1 0) h).
Hypothesis mul1 : forall h, mul N (lit N 1 0) h = opp N (mul N (lit N (-1) 0) h).
Variables x y : N.
Hypothesis Hx : ltb N x (lit N 0 0) = true.
Hypothesis Hy : ltb N y (lit N 0 0) = false.
Hypothesis Hxy : opp N x = y.

(** the results for x (negative) and y = -x: equal, or opposite, or the same zero *)
Inductive odd_rel : N -> N -> Prop :=
| odd_opp a b : a = opp N b -> odd_rel a b
| odd_zero a : eqb N a (lit N 0 0) = true -> odd_rel a a
| odd_zero2 : odd_rel (lit N 0 0) (lit N 0 0).

Lemma noflip_sym : range_reduce_noflip N x = range_reduce_noflip N y.
Proof. unfold range_reduce_noflip. rewrite Hx, Hy, Hxy. reflexivity. Qed.
Lemma flip_sym : exists s z, (s = lit N 1 0 \/ s = lit N (-1) 0) /\
  range_reduce_flip N y = (s, z) /\ range_reduce_flip N x = (opp N s, z).
Proof.
  unfold range_reduce_flip. rewrite Hx, Hy, Hxy. cbv beta iota zeta.
  destruct (ltb N (Cl_PI N) _); do 2 eexists; (split; [|split; [reflexivity|]]).
  - right. exact opp1.
  - rewrite opp1. reflexivity.
  - left. reflexivity.
  - rewrite opp1. reflexivity.
Qed.
Lemma mul_opp s h : s = lit N 1 0 \/ s = lit N (-1) 0 -> mul N (opp N s) h = opp N (mul N s h).
Proof. intros [-> | ->]; [rewrite opp1; apply mulm1 | rewrite oppm1; apply mul1]. Qed.

Lemma Cl1_sym : Cl1_d N x = Cl1_d N y.
Proof. unfold Cl1_d. rewrite Hx, Hy, Hxy. reflexivity. Qed.
Lemma Cl3_sym : Cl3_d N x = Cl3_d N y.
Proof. unfold Cl3_d. rewrite Hx, Hy, Hxy. reflexivity. Qed.
Lemma Cl5_sym : Cl5_d N x = Cl5_d N y.
Proof. unfold Cl5_d. rewrite Hx, Hy, Hxy. reflexivity. Qed.

Local Ltac odd_par f :=
  unfold f; rewrite Hx, Hy; cbv beta iota; rewrite Hxy; cbv zeta;
  match goal with |- context[if leb N ?p y then ?a else ?b] =>
    let z := fresh "z" in generalize (if leb N p y then a else b); intros z;
    match goal with |- context[ltb N ?q z] => destruct (ltb N q z) end end; cbv beta iota;
  match goal with |- context[eqb N ?w (lit N 0 0)] => 
    let E0 := fresh in destruct (eqb N w (lit N 0 0)) eqn:E0; [apply odd_zero; exact E0|];
    match goal with |- context[eqb N w ?q] => destruct (eqb N w q); [apply odd_zero2|] end end;
  apply odd_opp; rewrite ?opp1, ?oppm1; first [apply mulm1 | apply mul1].
Lemma Cl2_odd : odd_rel (Cl2_d N x) (Cl2_d N y).
Proof. odd_par Cl2_d. Qed.
Lemma Cl4_odd : odd_rel (Cl4_d N x) (Cl4_d N y).
Proof. odd_par Cl4_d. Qed.
Lemma Cl6_odd : odd_rel (Cl6_d N x) (Cl6_d N y).
Proof. odd_par Cl6_d. Qed.

(** lifted to outcomes *)
Inductive orel (P : N -> N -> Prop) : out N -> out N -> Prop :=
| orel_val a b : P a b -> orel P (Val a) (Val b)
| orel_ub : orel P Ub Ub
| orel_nofuel : orel P NoFuel NoFuel.

Lemma Cl_sym_odd n : is_even n = false -> Cl N n x = Cl N n y.
Proof.
  intros E. unfold Cl. rewrite Cl1_sym, Cl3_sym, Cl5_sym.
  destruct (n <? 1) eqn:E1; [reflexivity|]. 
  destruct (n =? 1); [reflexivity|].
  destruct (Z.eqb_spec n 2) as [->|]; [discriminate E|].
  destruct (n =? 3); [reflexivity|].
  destruct (Z.eqb_spec n 4) as [->|]; [discriminate E|].
  destruct (n =? 5); [reflexivity|].
  destruct (Z.eqb_spec n 6) as [->|]; [discriminate E|].
  unfold Cl_range_reduce. rewrite E, noflip_sym. reflexivity.
Qed.
Lemma Cl_sym_even n : is_even n = true -> 1 <= n -> orel odd_rel (Cl N n x) (Cl N n y).
Proof.
  intros E Hn. unfold Cl. 
  destruct (Z.ltb_spec n 1); [lia|]. 
  destruct (Z.eqb_spec n 1) as [->|]; [discriminate E|].
  destruct (Z.eqb_spec n 2) as [->|]; [constructor; apply Cl2_odd|].
  destruct (Z.eqb_spec n 3) as [->|]; [discriminate E|].
  destruct (Z.eqb_spec n 4) as [->|]; [constructor; apply Cl4_odd|].
  destruct (Z.eqb_spec n 5) as [->|]; [discriminate E|].
  destruct (Z.eqb_spec n 6) as [->|]; [constructor; apply Cl6_odd|].
  unfold Cl_range_reduce. rewrite E. destruct flip_sym as (s & z & S & -> & ->). cbn [andb].
  destruct (eqb N z (lit N 0 0)) eqn:E0; [constructor; apply odd_zero; exact E0|].
  destruct (eqb N z (Cl_PI N)); [constructor; apply odd_zero2|].
  destruct (n <=? N_THRESH).
  - destruct (zref (inverse_factorial N) (n - 1)) as [f1| |]; cbn [bind]; try constructor.
    destruct (pcal N n z) as [pc| |]; cbn [bind]; try constructor.
    destruct (zref (inverse_factorial N) (n - 2)) as [f2| |]; cbn [bind]; try constructor.
    destruct (nsum N n z) as [ns| |]; cbn [bind]; try constructor.
    apply odd_opp. apply mul_opp. exact S.
  - destruct (cl_series N n z) as [v| |]; cbn [bind]; constructor. apply odd_opp, mul_opp, S.
Qed.
Lemma Sl_sym_even n : is_even n = true -> Sl N n x = Sl N n y.
Proof. intros E. unfold Sl, Sl_range_reduce. rewrite E, noflip_sym. reflexivity. Qed.
Lemma Sl_poly_mul n f : Sl_poly N n = Some f -> forall z, exists h, forall s, f s z = mul N s h.
Proof.
  unfold Sl_poly. generalize (Z.to_nat (n - 1)). intros i Hi z.
  do 25 (destruct i as [|i]; [injection Hi as <-; eexists; intros s; 
    cbv beta delta [Sl_poly_1 Sl_poly_2 Sl_poly_3 Sl_poly_4 Sl_poly_5 Sl_poly_6 Sl_poly_7 Sl_poly_8 Sl_poly_9
  Sl_poly_10 Sl_poly_11 Sl_poly_12 Sl_poly_13 Sl_poly_14 Sl_poly_15 Sl_poly_16 Sl_poly_17 Sl_poly_18 Sl_poly_19 Sl_poly_20
  Sl_poly_21 Sl_poly_22 Sl_poly_23 Sl_poly_24 Sl_poly_25]; cbv zeta; reflexivity|]).
  destruct i; discriminate Hi.
Qed.
Lemma Sl_sym_odd n : is_even n = false -> 1 <= n -> orel odd_rel (Sl N n x) (Sl N n y).
Proof.
  intros E Hn. unfold Sl, Sl_range_reduce. rewrite E. destruct (Z.ltb_spec n 1); [lia|].
  destruct flip_sym as (s & z & S & -> & ->). cbn [andb negb].
  destruct (eqb N z (lit N 0 0)) eqn:E0; [constructor; apply odd_zero; exact E0|].
  destruct (Sl_poly N n) as [f|] eqn:P.
  - constructor. destruct (Sl_poly_mul n f P z) as [h Hh]. rewrite !Hh. apply odd_opp, mul_opp, S.
  - destruct (sl_series N n z) as [v| |]; cbn [bind]; constructor. apply odd_opp, mul_opp, S.
Qed.
End G.

(** ** binary64 *)
Lemma Bopp_opp (x : f64) : Bopp (Bopp x) = x. Proof. apply Bopp_involutive. Qed.
Lemma SF_inj (a b : f64) : B2SF a = B2SF b -> a = b. Proof. apply B2SF_inj. Qed.

Lemma Bmult_one_gen (s : bool) (h : f64) :
  Bmult mode_NE (blit 53 1024 Hp53 He53 (if s then -1 else 1) 0) h = if s then Bopp h else h.
Proof.
  destruct (litZ_exact 53 1024 Hp53 He53 ltac:(lia) (if s then -1 else 1)) as [A B].
  { destruct s; vm_compute; discriminate. }
  set (one := blit 53 1024 Hp53 He53 (if s then -1 else 1) 0) in *.
  assert (SG : Bsign one = s) by (destruct s; vm_compute; reflexivity).
  destruct h as [t|t| |t m e Hb].
  - destruct s, t; vm_compute; reflexivity.
  - destruct s, t; vm_compute; reflexivity.
  - destruct s; vm_compute; reflexivity.
  - set (h := B754_finite t m e Hb).
    pose proof (Bmult_correct 53 1024 Hp53 He53 mode_NE one h) as K. cbn [round_mode] in K.
    assert (V : (B2R one * B2R h = B2R (if s then Bopp h else h))%R).
    { rewrite A. destruct s; [rewrite B2R_Bopp|]; ring. }
    rewrite V in K.
    rewrite round_generic in K by (try apply valid_rnd_N; apply generic_format_B2R).
    rewrite Rlt_bool_true in K by apply abs_B2R_lt_emax.
    destruct K as (K1 & K2 & K3). rewrite B in K2. cbn [andb] in K2.
    assert (FH : is_finite h = true) by reflexivity. 
    assert (FIN : is_finite (Bmult mode_NE one h) = true) by (rewrite K2; reflexivity).
    assert (NN : is_nan (Bmult mode_NE one h) = false) by (destruct (Bmult mode_NE one h); try reflexivity; discriminate FIN).
    specialize (K3 NN).
    apply B2R_Bsign_inj.
    + exact FIN.
    + destruct s; [rewrite is_finite_Bopp|]; reflexivity.
    + exact K1.
    + rewrite K3, SG. destruct s; [rewrite Bsign_Bopp by reflexivity|]; destruct t; reflexivity.
Qed.

Section P.
Variable L : libm 53 1024.
Hypothesis HL : libm_ok (Hp := Hp53) (He := He53) L.
Local Notation N := (B64 L).

Lemma o1 : opp N (lit N 1 0) = lit N (-1) 0. Proof. apply SF_inj. vm_compute. reflexivity. Qed.
Lemma om1 : opp N (lit N (-1) 0) = lit N 1 0. Proof. apply SF_inj. vm_compute. reflexivity. Qed.
Lemma mm1 h : mul N (lit N (-1) 0) h = opp N (mul N (lit N 1 0) h).
Proof.
  change (Bmult mode_NE (blit 53 1024 Hp53 He53 (-1) 0) h = Bopp (Bmult mode_NE (blit 53 1024 Hp53 He53 1 0) h)).
  rewrite (Bmult_one_gen true), (Bmult_one_gen false). reflexivity.
Qed.
Lemma m1 h : mul N (lit N 1 0) h = opp N (mul N (lit N (-1) 0) h).
Proof.
  change (Bmult mode_NE (blit 53 1024 Hp53 He53 1 0) h = Bopp (Bmult mode_NE (blit 53 1024 Hp53 He53 (-1) 0) h)).
  rewrite (Bmult_one_gen true), (Bmult_one_gen false). rewrite Bopp_opp. reflexivity.
Qed.

(** sign trichotomy of a double *)
Lemma sign_cases (x : f64) :
  (ltb N x (lit N 0 0) = true /\ ltb N (opp N x) (lit N 0 0) = false) \/
  (ltb N x (lit N 0 0) = false /\ ltb N (opp N x) (lit N 0 0) = true) \/
  (exists s, x = zr s) \/ x = B754_nan.
Proof.
  destruct x as [s|s| |s m e B].
  - right; right; left. eauto.
  - destruct s; [left|right; left]; split; vm_compute; reflexivity.
  - auto.
  - destruct s; [left|right; left]; split; reflexivity.
Qed.
Local Notation odd_rel := (odd_rel N).
Lemma odd_rel_sym a b : odd_rel a b -> odd_rel b a.
Proof.
  intros [u v H|u H|]; [apply odd_opp; subst; symmetry; apply Bopp_opp|apply odd_zero; exact H|apply odd_zero2].
Qed.
Lemma orel_sym u v : orel N odd_rel u v -> orel N odd_rel v u.
Proof. intros []; constructor. apply odd_rel_sym; auto. Qed.

(** ** zero arguments of the even functions *)
Definition iszero (v : f64) : Prop := exists s, v = zr s.
Lemma z_mul_l (a b : f64) : iszero a -> is_finite b = true -> iszero (mul N a b).
Proof. intros [s ->] F. destruct b; try discriminate F; eexists; reflexivity. Qed.
Lemma z_mul_r (a b : f64) : iszero b -> is_finite a = true -> iszero (mul N a b).
Proof. intros [s ->] F. destruct a; try discriminate F; eexists; reflexivity. Qed.
Lemma z_add (a b : f64) : iszero a -> iszero b -> iszero (add N a b).
Proof. intros [s ->] [t ->]. destruct s, t; eexists; reflexivity. Qed.
Lemma z_div (a b : f64) : iszero a -> is_finite_strict b = true -> iszero (div N a b).
Proof. intros [s ->] F. destruct b; try discriminate F; eexists; reflexivity. Qed.
Lemma z_fin a : iszero a -> is_finite a = true. Proof. intros [s ->]. reflexivity. Qed.
Lemma z_eqb a b : iszero a -> iszero b -> eqb N a b = true.
Proof. intros [s ->] [t ->]. destruct s, t; reflexivity. Qed.

Lemma ncal_zero n s : 0 <= n <= 8 -> exists v, ncal N n (zr s) = Val v /\ iszero v.
Proof.
  intros Hn. unfold ncal. change (length CL_B) with 202%nat.
  assert (POS : forall k, 1 <= k <= 20 -> is_finite_strict (ofZ N k : f64) = true /\ is_finite (ofZ N k : f64) = true /\ (0 < B2R (ofZ N k : f64))%R).
  { intros k Hk. destruct (ofZ_exact 53 1024 Hp53 He53 ltac:(lia) k) as [A B]. { apply Z.le_trans with 20; [lia|]. vm_compute; discriminate. }
    assert (C : (0 < B2R (ofZ N k : f64))%R) by (change (0 < B2R (bnorm 53 1024 Hp53 He53 k 0))%R; rewrite A; apply IZR_lt; lia).
    split; [|split; [exact B|exact C]].
    change (ofZ N k) with (bnorm 53 1024 Hp53 He53 k 0) in *.
    destruct (bnorm 53 1024 Hp53 He53 k 0); try discriminate B; [cbn in C; lra|reflexivity]. }
  destruct (POS (n + 1) ltac:(lia)) as (P1 & P2 & P3).
  destruct (pow_zero _ _ _ _ L HL s (ofZ N (n + 1)) P2 P3) as [t Ht].
  change (m_pow 53 1024 L (zr s) (ofZ N (n + 1))) with (npow N (zr s) (ofZ N (n + 1))) in Ht. rewrite Ht.
  assert (X2 : mul N (zr s) (zr s) = (zr false : f64)) by (destruct s; reflexivity). rewrite X2.
  assert (XN : iszero (mul N (zr t) (zr false))) by (apply z_mul_l; [eexists; reflexivity|reflexivity]).
  generalize 202%nat. intros cnt.
  cbn [ncal_loop]. change (1 <=? Z.of_nat (length CL_B)) with true. cbv iota.
  destruct (tref_ok N CL_B (1 - 1)) as (d & D & E). { vm_compute. split; discriminate || reflexivity. }
  rewrite E. cbn [bind]. 
  assert (FD : is_finite (lit N (fst d) (snd d) : f64) = true). { vm_compute in D. injection D as <-. vm_compute. reflexivity. }
  destruct (POS (2 * 1 + n + 1) ltac:(lia)) as (Q1 & _).
  assert (SZ : iszero (add N (lit N 0 0) (div N (mul N (lit N (fst d) (snd d)) (mul N (zr t) (zr false))) (ofZ N (2 * 1 + n + 1))))).
  { apply z_add; [eexists; vm_compute; reflexivity|]. apply z_div; [apply z_mul_r; auto|exact Q1]. }
  rewrite z_eqb; [|exact SZ|eexists; vm_compute; reflexivity].
  cbn [bind]. eexists; split; [reflexivity|]. apply z_div; [|exact P1]. apply z_add; [|exact SZ]. apply z_div; [eexists; reflexivity|exact P1].
Qed.

Lemma nsum_loop_zero cnt i n s sum xn : 2 <= n <= 9 -> 0 <= i -> iszero sum -> is_finite (xn : f64) = true -> (Rabs (B2R (xn : f64)) <= 1)%R ->
  exists a b, nsum_loop N cnt i n (zr s) sum xn = Val (a, b) /\ iszero a /\ is_finite (b : f64) = true.
Proof.
  intros Hn. revert i sum xn. induction cnt as [|c IH]; intros i sum xn Hi Z F R1; [cbn; do 2 eexists; repeat split; auto|].
  cbn [nsum_loop]. destruct (Z.leb_spec i (n - 3)); [|do 2 eexists; repeat split; auto].
  destruct (binomial_row (n - 2) ltac:(lia)) as (row & R & Hr). rewrite R. cbn [bind].
  destruct (zref_ok row i) as (b & Hb & Nb); [lia|]. rewrite Hb. cbn [bind].
  destruct (ncal_zero (n - 2 - i) s ltac:(lia)) as (v & -> & Hv). cbn [bind].
  assert (BB : 0 <= b <= 35).
  { assert (n - 2 = 0 \/ n - 2 = 1 \/ n - 2 = 2 \/ n - 2 = 3 \/ n - 2 = 4 \/ n - 2 = 5 \/ n - 2 = 6 \/ n - 2 = 7) as C by lia.
    assert (Forall (fun b => 0 <= b <= 35) row) as FA.
    { destruct C as [C|[C|[C|[C|[C|[C|[C|C]]]]]]]; rewrite C in R; vm_compute in R; injection R as <-; repeat constructor; lia. }
    apply nth_error_In in Nb. rewrite Forall_forall in FA. auto. }
  destruct (ofZ_exact 53 1024 Hp53 He53 ltac:(lia) b) as [B1 B2]. { apply Z.le_trans with 35; [lia|]. vm_compute; discriminate. }
  assert (FM : is_finite (mul N (ofZ N b) xn : f64) = true).
  { apply (Bmult_ok 53 1024 Hp53 He53); auto. apply (rnd_small 53 1024 Hp53 He53 ltac:(lia)).
    apply Rle_trans with (bpow radix2 6); [|apply bpow_le; lia]. change (B2R (ofZ N b : f64)) with (B2R (bnorm 53 1024 Hp53 He53 b 0)); rewrite B1, Rabs_mult. rewrite <- abs_IZR.
    assert (IZR (Z.abs b) <= 35)%R by (apply IZR_le; lia). assert (0 <= IZR (Z.abs b))%R by (apply IZR_le; lia).
    change (bpow radix2 6) with 64%R. pose proof (Rabs_pos (B2R (xn : f64))). nra. }
  assert (XZ : iszero (mul N xn (opp N (zr s)))) by (apply z_mul_r; [eexists; reflexivity|exact F]).
  apply IH; [lia| | |].
  - apply z_add; auto. apply z_mul_r; auto.
  - apply z_fin; auto.
  - destruct XZ as [t ->]. cbn. rewrite Rabs_R0. lra.
Qed.
Lemma nsum_zero n s : 2 <= n <= 9 -> exists v, nsum N n (zr s) = Val v /\ iszero v.
Proof.
  intros H. unfold nsum.
  destruct (nsum_loop_zero (Z.to_nat n) 0 n s (lit N 0 0) (lit N 1 0) H ltac:(lia)) as (a & b & -> & A & B).
  - eexists; vm_compute; reflexivity.
  - vm_compute; reflexivity.
  - destruct (litZ_exact 53 1024 Hp53 He53 ltac:(lia) 1) as [E _]; [vm_compute; discriminate|].
    change (lit N 1 0) with (blit 53 1024 Hp53 He53 1 0). rewrite E, Rabs_R1. lra.
  - cbn [bind]. destruct (ncal_zero 0 s ltac:(lia)) as (w & -> & W). cbn [bind fst snd].
    eexists; split; [reflexivity|]. apply z_add; auto. apply z_mul_r; auto.
Qed.

Lemma Cl_odd_zero n : is_even n = false -> Cl N n (zr true) = Cl N n (zr false).
Proof.
  intros E. unfold Cl.
  destruct (Z.ltb_spec n 1); [reflexivity|].
  destruct (Z.eqb_spec n 1) as [->|]. { reflexivity. }
  destruct (Z.eqb_spec n 2) as [->|]; [discriminate E|].
  destruct (Z.eqb_spec n 3) as [->|]. { change (Z.eqb 3 3) with true. first [reflexivity | f_equal; apply SF_inj; vm_compute; reflexivity]. }
  destruct (Z.eqb_spec n 4) as [->|]; [discriminate E|].
  destruct (Z.eqb_spec n 5) as [->|]. { change (Z.eqb 3 3) with true. first [reflexivity | f_equal; apply SF_inj; vm_compute; reflexivity]. }
  destruct (Z.eqb_spec n 6) as [->|]; [discriminate E|].
  unfold Cl_range_reduce. rewrite E, !noflip_zero. cbn [andb].
  unfold N_THRESH. destruct (Z.leb_spec n 9) as [H9|H9].
  - destruct (zref_defined (inverse_factorial N) (n - 1)) as [f1 ->]. { change (Z.of_nat (length (inverse_factorial N))) with 9. lia. }
    destruct (zref_ok (inverse_factorial N) (n - 2)) as (f2 & -> & F2). { change (Z.of_nat (length (inverse_factorial N))) with 9. lia. }
    cbn [bind].
    replace (eqb N (zr true) (lit N 0 0)) with true by reflexivity.
    replace (eqb N (zr false) (lit N 0 0)) with true by reflexivity.
    assert (PC : pcal N n (zr true) = pcal N n (zr false)).
    { unfold pcal. replace (mul N (zr true) (zr true)) with (zr false : N) by reflexivity.
      replace (mul N (zr false) (zr false)) with (zr false : N) by reflexivity. rewrite E. reflexivity. }
    rewrite PC. destruct (pcal_defined N n (zr false) ltac:(lia)) as [pc Hpc]. rewrite Hpc. cbn [bind].
    destruct (nsum_zero n true ltac:(lia)) as (v & -> & Hv). destruct (nsum_zero n false ltac:(lia)) as (w & -> & Hw). cbn [bind].
    assert (FF : is_finite (mul N (if is_even (Z.quot n 2) then lit N 1 0 else lit N (-1) 0) f2 : f64) = true /\ is_finite_strict (pc : f64) = true).
    { assert (n = 7 \/ n = 9) as C. { apply even_false in E. destruct E as [k ->]. lia. }
      destruct C as [-> | ->]; cbn in F2; injection F2 as <-;
      (split; [vm_compute; reflexivity|]); apply (f_equal (fun o => match o with Val u => is_finite_strict (u : f64) | _ => true end)) in Hpc;
      vm_compute in Hpc; exact (eq_sym Hpc). }
    destruct FF as [FF SP].
    set (c := mul N _ f2) in *. clearbody c.
    assert (Q : forall u : f64, iszero u -> sub N pc (mul N c u) = pc).
    { intros u Hu. destruct (z_mul_r c u Hu FF) as [t ->]. destruct (pc : f64); try discriminate SP. reflexivity. }
    rewrite (Q v Hv), (Q w Hw). reflexivity.
  - unfold cl_series. rewrite E. unfold cos_series. 
    replace (ncos N (zr true)) with (ncos N (zr false)); [reflexivity|].
    transitivity (bnorm 53 1024 Hp53 He53 1 0); [|symmetry]; apply (cos_zero _ _ _ _ L HL).
Qed.

Lemma Sl_even_poly n f : is_even n = true -> 1 <= n -> Sl_poly N n = Some f ->
  f (lit N 1 0) (zr true) = f (lit N 1 0) (zr false).
Proof.
  intros E Hn P. unfold Sl_poly in P. apply even_spec in E. destruct E as [k Hk].
  assert (K : 1 <= k) by lia.
  assert (n <= 25). { destruct (Z.leb_spec n 25); [assumption|]. exfalso.
    assert (HH : (25 <= Z.to_nat (n - 1))%nat) by lia. 
    match type of P with nth_error ?l _ = _ => assert (Q : nth_error l (Z.to_nat (n - 1)) = None) by (apply nth_error_None; exact HH) end.
    rewrite Q in P. discriminate P. }
  assert (k = 1 \/ k = 2 \/ k = 3 \/ k = 4 \/ k = 5 \/ k = 6 \/ k = 7 \/ k = 8 \/ k = 9 \/ k = 10 \/ k = 11 \/ k = 12) as C by lia.
  repeat (destruct C as [C|C]; [subst k; subst n; vm_compute Z.to_nat in P; cbn [nth_error] in P; injection P as <-; apply SF_inj; vm_compute; reflexivity|]).
  subst k; subst n; vm_compute Z.to_nat in P; cbn [nth_error] in P; injection P as <-; apply SF_inj; vm_compute; reflexivity.
Qed.
Lemma Sl_even_zero n : is_even n = true -> Sl N n (zr true) = Sl N n (zr false).
Proof.
  intros E. unfold Sl, Sl_range_reduce. rewrite E, !noflip_zero. destruct (Z.ltb_spec n 1); [reflexivity|]. cbn [andb negb].
  destruct (Sl_poly N n) as [f|] eqn:P.
  - f_equal. apply (Sl_even_poly n f E H P).
  - unfold sl_series. rewrite E. unfold cos_series.
    replace (ncos N (zr true)) with (ncos N (zr false)); [reflexivity|].
    transitivity (bnorm 53 1024 Hp53 He53 1 0); [|symmetry]; apply (cos_zero _ _ _ _ L HL).
Qed.

(** ** the parity theorems *)
Definition opposite (a b : f64) : Prop := a = Bopp b \/ (iszero a /\ iszero b).
Inductive same_outcome (P : f64 -> f64 -> Prop) : out f64 -> out f64 -> Prop :=
| same_val a b : P a b -> same_outcome P (Val a) (Val b)
| same_ub : same_outcome P Ub Ub
| same_nofuel : same_outcome P NoFuel NoFuel.

Lemma eqb_iszero (a : f64) : eqb N a (lit N 0 0) = true -> iszero a.
Proof. destruct a as [s|s| |s m e B]; [intros _; eexists; reflexivity|..]; destruct s || idtac; vm_compute; discriminate. Qed.
Lemma odd_rel_opposite a b : odd_rel a b -> opposite a b.
Proof.
  intros [u v H|u H|]; [left; exact H|right; split; apply eqb_iszero, H|right; split; exists false; apply SF_inj; vm_compute; reflexivity].
Qed.
Lemma orel_same u v : orel N odd_rel u v -> same_outcome opposite u v.
Proof. intros []; constructor. apply odd_rel_opposite; auto. Qed.

Theorem Cl_parity_even n x : 1 <= n -> is_int64 n -> Z.even n = true -> same_outcome opposite (Cl N n (Bopp x)) (Cl N n x).
Proof.
  intros Hn Hi E. rewrite <- even_Zeven in E.
  destruct (sign_cases x) as [[A B]|[[A B]|[[s ->]| ->]]].
  - apply orel_same, orel_sym, (Cl_sym_even N o1 om1 mm1 m1 x (Bopp x) A B eq_refl n E Hn).
  - apply orel_same. apply (Cl_sym_even N o1 om1 mm1 m1 (Bopp x) x B A); auto. apply Bopp_opp.
  - change (Bopp (zr s : f64)) with (zr (negb s) : f64). rewrite even_Zeven in E. rewrite !Cl_even_zero by assumption.
    constructor. right. split; eexists; reflexivity.
  - change (Bopp (B754_nan : f64)) with (nan N). change (B754_nan : f64) with (nan N).
    rewrite (Cl_nan N (NumB_nan_laws _ _ _ _ L (libm_ok_nan L HL)) n).
    + constructor. left. reflexivity.
    + intros _. destruct (kmax_defined L n HL Hn Hi) as (k & -> & _). eauto.
Qed.
Theorem Cl_parity_odd n x : Z.even n = false -> Cl N n (Bopp x) = Cl N n x.
Proof.
  intros E. rewrite <- even_Zeven in E.
  destruct (sign_cases x) as [[A B]|[[A B]|[[s ->]| ->]]].
  - symmetry. apply (Cl_sym_odd N x (Bopp x) A B eq_refl n E).
  - apply (Cl_sym_odd N (Bopp x) x B A); auto. apply Bopp_opp.
  - change (Bopp (zr s : f64)) with (zr (negb s) : f64). destruct s; [symmetry|]; apply Cl_odd_zero; auto.
  - reflexivity.
Qed.
Theorem Sl_parity_odd n x : 1 <= n -> is_int64 n -> Z.even n = false -> same_outcome opposite (Sl N n (Bopp x)) (Sl N n x).
Proof.
  intros Hn Hi E. rewrite <- even_Zeven in E.
  destruct (sign_cases x) as [[A B]|[[A B]|[[s ->]| ->]]].
  - apply orel_same, orel_sym, (Sl_sym_odd N o1 om1 mm1 m1 x (Bopp x) A B eq_refl n E Hn).
  - apply orel_same. apply (Sl_sym_odd N o1 om1 mm1 m1 (Bopp x) x B A); auto. apply Bopp_opp.
  - change (Bopp (zr s : f64)) with (zr (negb s) : f64). rewrite even_Zeven in E. rewrite !Sl_odd_zero by assumption.
    constructor. right. split; eexists; reflexivity.
  - change (Bopp (B754_nan : f64)) with (nan N). change (B754_nan : f64) with (nan N).
    rewrite (Sl_nan N (NumB_nan_laws _ _ _ _ L (libm_ok_nan L HL)) n).
    + constructor. left. reflexivity.
    + intros _. destruct (kmax_defined L n HL Hn Hi) as (k & -> & _). eauto.
Qed.
Theorem Sl_parity_even n x : Z.even n = true -> Sl N n (Bopp x) = Sl N n x.
Proof.
  intros E. rewrite <- even_Zeven in E.
  destruct (sign_cases x) as [[A B]|[[A B]|[[s ->]| ->]]].
  - symmetry. apply (Sl_sym_even N x (Bopp x) A B eq_refl n E).
  - apply (Sl_sym_even N (Bopp x) x B A); auto. apply Bopp_opp.
  - change (Bopp (zr s : f64)) with (zr (negb s) : f64). destruct s; [symmetry|]; apply Sl_even_zero; auto.
  - reflexivity.
Qed.
End P.
