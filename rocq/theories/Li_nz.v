(** * The partial sums of the inversion remainder do not vanish when |Arg(-z)| is not too large

    (Saff and Varga, "Zero-free parabolic regions for sequences of polynomials", SIAM J. Math. Anal. 7 (1976) 344:
    if a_0/a_1 >= al and a_i/a_(i+1) - a_(i-1)/a_i >= al then sum_(i<=k) a_i w^i has no zero with
    Im(w)^2 <= 4 al (Re w + al), Re w > -al.) *)
From Coq Require Import ZArith Reals List Bool Lra Lia Psatz.
From Coquelicot Require Import Coquelicot.
From Verif Require Import Num NumR Outcome Spec Chain Cplx Polylog Zeta_num Clog_series Rest Unity Properties_K Ccalc CLi CLi_disc Li_gen Li_gen2.
Import ListNotations.
Local Open Scope R_scope.

Section P.
Variables (a b : nat -> R) (al : R) (w : C) (K : nat).
Hypothesis Ha : 0 < a 0%nat.
Hypothesis Hal : 0 < al.
Hypothesis Hb : forall k, (k < K)%nat -> b (S k) * a (S k) = a k.
Hypothesis Hd : forall k, (k < K)%nat -> al <= b (S k) - b k.
Hypothesis Hb0 : b 0%nat = 0.
Hypothesis Hx : 0 < fst w + al.
Hypothesis Hy : snd w * snd w <= 4 * al * (fst w + al).
Definition P (k : nat) : C := Csum (fun i => Cmult (RtoC (a i)) (Cpow w i)) k.
Lemma half_plane (x y p q : R) : 0 < x + al -> y * y <= 4 * al * (x + al) -> x + al <= p -> x * p + y * q <= p * p + q * q.
Proof.
  intros A B C. assert (D : al * (x + al) <= p * (p - x)) by nra. assert (E : 0 <= (2 * q - y) * (2 * q - y)) by apply Rle_0_sqr. nra.
Qed.
Lemma b_pos k : (k <= K)%nat -> 0 <= b k.
Proof. induction k as [|k IH]; intros H; [lra|]. specialize (IH ltac:(lia)). specialize (Hd k ltac:(lia)). lra. Qed.
Lemma parabola k : (k <= K)%nat -> P (S k) <> RtoC 0 /\ fst (Cdiv (Cmult w (P k)) (P (S k))) <= b k.
Proof.
  induction k as [|k IH]; intros Hk.
  - assert (E1 : P 1 = RtoC (a 0%nat)) by (unfold P; cbn [Csum Cpow]; ring). assert (E0 : P 0 = RtoC 0) by reflexivity.
    rewrite E1, E0. split; [apply RtoC_neq; lra|]. replace (Cdiv (Cmult w (RtoC 0)) (RtoC (a 0%nat))) with (RtoC 0) by (unfold Cdiv; ring). rewrite Hb0. cbn. lra.
  - destruct (IH ltac:(lia)) as [N0 R0]. pose proof (b_pos k ltac:(lia)) as BK. pose proof (Hb k ltac:(lia)) as HB. pose proof (Hd k ltac:(lia)) as HD.
    set (rho := Cdiv (Cmult w (P k)) (P (S k))) in *. set (D := Cminus (Cplus (RtoC (b (S k))) w) rho).
    assert (BP : 0 < b (S k)) by lra.
    assert (E : Cmult (RtoC (b (S k))) (P (S (S k))) = Cmult (P (S k)) D).
    { assert (S1 : P (S (S k)) = Cplus (P (S k)) (Cmult (RtoC (a (S k))) (Cpow w (S k)))) by reflexivity.
      assert (S0 : P (S k) = Cplus (P k) (Cmult (RtoC (a k)) (Cpow w k))) by reflexivity.
      assert (W : Cmult (P (S k)) rho = Cmult w (P k)) by (unfold rho; field; exact N0).
      unfold D. replace (Cmult (P (S k)) (Cminus (Cplus (RtoC (b (S k))) w) rho)) with (Cminus (Cplus (Cmult (RtoC (b (S k))) (P (S k))) (Cmult w (P (S k)))) (Cmult (P (S k)) rho)) by ring.
      rewrite W, S1. rewrite Cmult_plus_distr_l. replace (Cmult w (P (S k))) with (Cplus (Cmult w (P k)) (Cmult w (Cmult (RtoC (a k)) (Cpow w k)))) by (rewrite S0; ring).
      rewrite <- HB, RtoC_mult. change (Cpow w (S k)) with (Cmult w (Cpow w k)). ring. }
    assert (DR : fst w + al <= fst D). { unfold D, Cminus, Cplus, Copp, RtoC. cbn [fst snd]. lra. }
    assert (D0 : D <> RtoC 0) by (intros Q; rewrite Q in DR; cbn in DR; lra).
    assert (B0 : RtoC (b (S k)) <> RtoC 0) by (apply RtoC_neq; lra).
    assert (N1 : P (S (S k)) <> RtoC 0).
    { intros Q. rewrite Q, Cmult_0_r in E. symmetry in E. revert E. apply Cmult_neq_0; assumption. }
    split; [exact N1|].
    assert (PE : P (S (S k)) = Cdiv (Cmult (P (S k)) D) (RtoC (b (S k)))) by (rewrite <- E; field; exact B0).
    assert (QE : Cdiv (Cmult w (P (S k))) (P (S (S k))) = Cmult (RtoC (b (S k))) (Cdiv w D)) by (rewrite PE; field; auto).
    rewrite QE. assert (DQ : fst (Cdiv w D) <= 1).
    { pose proof (half_plane (fst w) (snd w) (fst D) (snd D) Hx Hy DR) as H. assert (DP : 0 < fst D * fst D + snd D * snd D) by (pose proof (Rle_0_sqr (snd D)) as Q; unfold Rsqr in Q; nra).
      replace (fst (Cdiv w D)) with ((fst w * fst D + snd w * snd D) / (fst D * fst D + snd D * snd D)).
      - apply Rmult_le_reg_r with (fst D * fst D + snd D * snd D); [exact DP|]. unfold Rdiv. rewrite Rmult_assoc, Rinv_l, Rmult_1_l, Rmult_1_r by lra. exact H.
      - unfold Cdiv, Cinv, Cmult. cbn [fst snd]. field. cbn [pow]. lra. }
    replace (fst (Cmult (RtoC (b (S k))) (Cdiv w D))) with (b (S k) * fst (Cdiv w D)) by (unfold Cmult, RtoC; cbn [fst snd]; ring).
    rewrite <- (Rmult_1_r (b (S k))) at 2. apply Rmult_le_compat_l; lra.
Qed.
End P.

(** ** the tables of the code: even eta values g_h = |c(2h)|, h >= 1 *)
Definition gz : list Z := Eval vm_compute in map (fun h => (- eta_n (2 * h))%Z) (seq 1 30).
Definition gZ (h : nat) : Z := nth (h - 1) gz 0%Z.
Lemma gz_ok : gz = map (fun h => (- eta_n (2 * h))%Z) (seq 1 30). Proof. vm_compute. reflexivity. Qed.
Lemma gZ_ok h : (1 <= h <= 30)%nat -> gZ h = (- eta_n (2 * h))%Z.
Proof.
  intros H. unfold gZ. rewrite gz_ok. rewrite (nth_indep _ 0%Z (- eta_n (2 * 0))%Z) by (rewrite map_length, seq_length; lia).
  change (- eta_n (2 * 0))%Z with ((fun h => (- eta_n (2 * h))%Z) 0%nat). rewrite map_nth, seq_nth by lia. f_equal. f_equal. lia.
Qed.
Lemma g_check : forallb (fun h => (gZ h <=? gZ (S h))%Z && (gZ h * gZ (S (S h)) <=? gZ (S h) * gZ (S h))%Z && (SC * 82 <=? 100 * gZ h)%Z && (gZ h <=? SC)%Z && (gZ (S h) <=? SC)%Z && (0 <=? gZ (S h))%Z && (gZ (S (S h)) <=? SC)%Z && (0 <=? gZ (S (S h)))%Z) (seq 1 28) = true.
Proof. vm_compute. reflexivity. Qed.

Section T.
Variables (e : R) (c f : nat -> R).
Hypothesis TB : code_tables e c f.
Definition g (h : nat) : R := - c (2 * h)%nat.
Lemma g_err h : (1 <= h)%nat -> Rabs (g h - - ReLi (2 * h) (-1)) <= 6 / 10 ^ 17.
Proof.
  intros H. destruct (tables_ex e) as (c' & f' & T' & C & _ & _). destruct (tables_unique e _ _ _ _ TB T') as [_ EC].
  specialize (C (2 * h)%nat ltac:(lia)). rewrite <- EC in C by lia. unfold g. replace (- c (2 * h)%nat - - ReLi (2 * h) (-1)) with (- (c (2 * h)%nat - ReLi (2 * h) (-1))) by ring. rewrite Rabs_Ropp. exact C.
Qed.
Lemma g_low h : (1 <= h <= 30)%nat -> Rabs (g h - IZR (gZ h) / IZR SC) <= 1 / 10 ^ 16.
Proof.
  intros H. pose proof (g_err h ltac:(lia)) as A. pose proof (eta_n_ok (2 * h) ltac:(lia)) as B. rewrite gZ_ok by lia. rewrite opp_IZR.
  replace (g h - - IZR (eta_n (2 * h)) / IZR SC) with ((g h - - ReLi (2 * h) (-1)) + (IZR (eta_n (2 * h)) / IZR SC - ReLi (2 * h) (-1))) by (unfold Rdiv; ring).
  eapply Rle_trans; [apply Rabs_triang|]. lra.
Qed.
Lemma g_high h : (28 <= h)%nat -> Rabs (g h - 1) <= 1 / 10 ^ 16.
Proof.
  intros H. pose proof (g_err h ltac:(lia)) as A. pose proof (eta_closed (2 * h) ltac:(lia)) as B.
  replace (g h - 1) with ((g h - - ReLi (2 * h) (-1)) + (-1 - ReLi (2 * h) (-1))) by ring. eapply Rle_trans; [apply Rabs_triang|]. lra.
Qed.
Lemma prod_err p q P Q : 0 <= P <= 1 -> 0 <= Q <= 1 -> - (1 / 10 ^ 16) <= p - P <= 1 / 10 ^ 16 -> - (1 / 10 ^ 16) <= q - Q <= 1 / 10 ^ 16 -> - (21 / 10 ^ 17) <= p * q - P * Q <= 21 / 10 ^ 17.
Proof.
  intros A B C D. replace (p * q - P * Q) with ((p - P) * (q - Q) + (P * (q - Q) + Q * (p - P))) by ring. set (u := p - P) in *. set (v := q - Q) in *. clearbody u v.
  assert (-(1 / 10 ^ 17) <= u * v <= 1 / 10 ^ 17) by (split; nra). assert (- (1 / 10 ^ 16) <= P * v <= 1 / 10 ^ 16) by (split; nra). assert (- (1 / 10 ^ 16) <= Q * u <= 1 / 10 ^ 16) by (split; nra). lra.
Qed.
Lemma g_facts h : (1 <= h)%nat -> 0.81 <= g h <= 1.000001 /\ g h <= (1 + 1 / 10 ^ 15) * g (S h) /\ g h * g (S (S h)) <= (1 + 1 / 10 ^ 15) * (g (S h) * g (S h)).
Proof.
  intros H. destruct (le_lt_dec h 28) as [L|L].
  - pose proof g_check as C. rewrite forallb_forall in C. specialize (C h ltac:(apply in_seq; lia)). rewrite !andb_true_iff, !Z.leb_le in C. destruct C as [[[[[[[C1 C2] C3] C4] C5] C6] C7] C8].
    pose proof (g_low h ltac:(lia)) as A0. pose proof (g_low (S h) ltac:(lia)) as A1. pose proof (g_low (S (S h)) ltac:(lia)) as A2.
    apply IZR_le in C1, C2, C3, C4, C5, C6, C7, C8. rewrite !mult_IZR in C2, C3. pose proof SC_pos as SP. set (s := IZR SC) in *. clearbody s.
    set (x := IZR (gZ h)) in *. set (y := IZR (gZ (S h))) in *. set (z := IZR (gZ (S (S h)))) in *. clearbody x y z.
    assert (D1 : x / s <= y / s) by (apply Rmult_le_compat_r; [apply Rlt_le, Rinv_0_lt_compat; exact SP|exact C1]).
    assert (D2 : x / s * (z / s) <= y / s * (y / s)).
    { replace (x / s * (z / s)) with (x * z * (/ s * / s)) by (unfold Rdiv; ring). replace (y / s * (y / s)) with (y * y * (/ s * / s)) by (unfold Rdiv; ring).
      apply Rmult_le_compat_r; [|exact C2]. apply Rlt_le, Rmult_lt_0_compat; apply Rinv_0_lt_compat; exact SP. }
    assert (D3 : 0.82 <= x / s). { apply Rmult_le_reg_r with s; [exact SP|]. unfold Rdiv. rewrite Rmult_assoc, Rinv_l, Rmult_1_r by lra. lra. }
    assert (D4 : x / s <= 1). { apply Rmult_le_reg_r with s; [exact SP|]. unfold Rdiv. rewrite Rmult_assoc, Rinv_l, Rmult_1_r by lra. lra. }
    assert (DD : forall v, 0 <= v -> v <= s -> 0 <= v / s <= 1).
    { intros v V0 V1. split; [apply Rmult_le_pos; [exact V0|apply Rlt_le, Rinv_0_lt_compat; exact SP]|]. apply Rmult_le_reg_r with s; [exact SP|]. unfold Rdiv. rewrite Rmult_assoc, Rinv_l, Rmult_1_r by lra. lra. }
    pose proof (DD y C6 C5) as DY. pose proof (DD z C8 C7) as DZ. clear DD.
    set (X := x / s) in *. set (Y := y / s) in *. set (Z := z / s) in *. clearbody X Y Z.
    apply Rabs_le_between in A0, A1, A2. set (G0 := g h) in *. set (G1 := g (S h)) in *. set (G2 := g (S (S h))) in *. clearbody G0 G1 G2.
    pose proof (prod_err G0 G2 X Z ltac:(lra) ltac:(lra) A0 A2) as E1. pose proof (prod_err G1 G1 Y Y ltac:(lra) ltac:(lra) A1 A1) as E2.
    assert (G11 : 0.6 <= G1 * G1) by nra. split; [lra|]. split; [lra|]. lra.
  - pose proof (g_high h ltac:(lia)) as A0. pose proof (g_high (S h) ltac:(lia)) as A1. pose proof (g_high (S (S h)) ltac:(lia)) as A2.
    apply Rabs_le_between in A0, A1, A2. set (G0 := g h) in *. set (G1 := g (S h)) in *. set (G2 := g (S (S h))) in *. clearbody G0 G1 G2.
    pose proof (prod_err G0 G2 1 1 ltac:(lra) ltac:(lra) ltac:(lra) ltac:(lra)) as E1. pose proof (prod_err G1 G1 1 1 ltac:(lra) ltac:(lra) ltac:(lra) ltac:(lra)) as E2.
    split; [lra|]. split; [lra|]. lra.
Qed.

(** f(m) ~ 1/m!: the ratio of entries two apart *)
Lemma f_ratio m : (m + 2 <= 177)%nat -> let M := (INR m + 1) * (INR m + 2) in
  0 < f (m + 2)%nat /\ (1 - 2 / 10 ^ 16) * M <= f m / f (m + 2)%nat <= (1 + 2 / 10 ^ 16) * M.
Proof.
  intros H M. destruct (tables_ex e) as (c' & f' & T' & _ & F & _). destruct (tables_unique e _ _ _ _ TB T') as [EF _].
  pose proof (F m ltac:(lia)) as A. pose proof (F (m + 2)%nat ltac:(lia)) as B. rewrite <- EF in A, B. clear F EF T' f' c'.
  assert (IP : forall k, 0 < inv_fact k) by (intros k; unfold inv_fact; apply Rinv_0_lt_compat, INR_fact_lt_0).
  assert (E : inv_fact m = M * inv_fact (m + 2)).
  { unfold inv_fact, M. replace (m + 2)%nat with (S (S m)) by lia. rewrite !fact_simpl, !mult_INR, !S_INR. pose proof (INR_fact_neq_0 m). pose proof (pos_INR m). field. repeat split; lra. }
  pose proof (IP (m + 2)%nat) as IQ. rewrite E in A. assert (MP : 0 < M) by (unfold M; pose proof (pos_INR m); apply Rmult_lt_0_compat; lra).
  set (v := inv_fact (m + 2)) in *. set (p := f m) in *. set (q := f (m + 2)%nat) in *. clearbody v p q M. clear E IP.
  apply Rabs_le_between in A, B. assert (QP : 0 < q) by nra. split; [exact QP|].
  assert (MV : 0 < M * v) by (apply Rmult_lt_0_compat; assumption).
  assert (MQ : M * v * (1 - 6 / 10 ^ 17) <= M * q <= M * v * (1 + 6 / 10 ^ 17)) by (split; nra).
  split; apply Rmult_le_reg_r with q; try exact QP; unfold Rdiv; rewrite (Rmult_assoc p), Rinv_l, Rmult_1_r by lra.
  - lra.
  - lra.
Qed.
End T.

Section N.
Variables (e : R) (n : nat) (c f : nat -> R) (L : C).
Hypothesis TB : code_tables e c f.
Let H := (n / 2)%nat.
Let m0 := (n mod 2)%nat.
Definition ac (i : nat) : R := g c (H - i) * f (m0 + 2 * i)%nat.
Definition bc (k : nat) : R := match k with O => 0 | S j => ac j / ac (S j) end.
Definition alc : R := if Nat.even n then 1.9999 else 5.9999.
Lemma m0_cases : (Nat.even n = true /\ m0 = 0%nat) \/ (Nat.even n = false /\ m0 = 1%nat).
Proof.
  unfold m0. destruct (Nat.even n) eqn:E; [left|right]; (split; [reflexivity|]).
  - apply Nat.even_spec in E. destruct E as [k ->]. rewrite Nat.mul_comm. apply Nat.mod_mul. lia.
  - rewrite <- Nat.negb_odd in E. apply negb_false_iff, Nat.odd_spec in E. destruct E as [k ->]. rewrite Nat.add_comm, Nat.mul_comm, Nat.mod_add by lia. reflexivity.
Qed.
(** b_(k+1) = (g(h+1)/g(h)) (f(m)/f(m+2)), h = H-k-1, m = m0+2k *)
Lemma bc_bounds k : (S k < H)%nat -> (m0 + 2 * S k <= 177)%nat -> let h := (H - S k)%nat in let M := (INR (m0 + 2 * k) + 1) * (INR (m0 + 2 * k) + 2) in
  0 < ac k /\ 0 < ac (S k) /\ (1 - 2 / 10 ^ 16) * (g c (S h) / g c h * M) <= bc (S k) <= (1 + 2 / 10 ^ 16) * (g c (S h) / g c h * M).
Proof.
  intros K1 K2 h M. destruct (f_ratio e c f TB (m0 + 2 * k) ltac:(lia)) as (F1 & F2). fold M in F2.
  destruct (g_facts e c f TB h ltac:(unfold h; lia)) as ((G0 & G0') & G1 & _). destruct (g_facts e c f TB (S h) ltac:(lia)) as ((G2 & G2') & _).
  unfold bc, ac. replace (m0 + 2 * S k)%nat with (m0 + 2 * k + 2)%nat by lia. replace (H - k)%nat with (S h) by (unfold h; lia). fold h.
  set (p := f (m0 + 2 * k)%nat) in *. set (q := f (m0 + 2 * k + 2)%nat) in *. set (x := g c (S h)) in *. set (y := g c h) in *.
  assert (MP : 0 < M) by (unfold M; pose proof (pos_INR (m0 + 2 * k)); apply Rmult_lt_0_compat; lra). clearbody p q x y M.
  assert (PP : 0 < p / q) by nra. assert (P1 : 0 < p) by (replace p with (p / q * q) by (field; lra); apply Rmult_lt_0_compat; assumption).
  split; [apply Rmult_lt_0_compat; lra|]. split; [apply Rmult_lt_0_compat; lra|].
  replace (x * p / (y * q)) with (x / y * (p / q)) by (field; lra). assert (XY : 0 < x / y) by (apply Rdiv_lt_0_compat; lra).
  split.
  - replace ((1 - 2 / 10 ^ 16) * (x / y * M)) with (x / y * ((1 - 2 / 10 ^ 16) * M)) by ring. apply Rmult_le_compat_l; lra.
  - replace ((1 + 2 / 10 ^ 16) * (x / y * M)) with (x / y * ((1 + 2 / 10 ^ 16) * M)) by ring. apply Rmult_le_compat_l; lra.
Qed.
Lemma g_ratio h : (1 <= h)%nat -> 0.9999999 <= g c (S h) / g c h <= 1.3 /\ g c (S (S h)) / g c (S h) <= (1 + 1 / 10 ^ 15) * (g c (S h) / g c h).
Proof.
  intros Hh. destruct (g_facts e c f TB h Hh) as ((G0 & G0') & G1 & G3). destruct (g_facts e c f TB (S h) ltac:(lia)) as ((G2 & G2') & _).
  set (x := g c h) in *. set (y := g c (S h)) in *. set (z := g c (S (S h))) in *. clearbody x y z.
  split; [split|].
  - apply Rmult_le_reg_r with x; [lra|]. unfold Rdiv. rewrite Rmult_assoc, Rinv_l, Rmult_1_r by lra. lra.
  - apply Rmult_le_reg_r with x; [lra|]. unfold Rdiv. rewrite Rmult_assoc, Rinv_l, Rmult_1_r by lra. lra.
  - apply Rmult_le_reg_r with (x * y); [apply Rmult_lt_0_compat; lra|]. replace (z / y * (x * y)) with (x * z) by (field; lra).
    replace ((1 + 1 / 10 ^ 15) * (y / x) * (x * y)) with ((1 + 1 / 10 ^ 15) * (y * y)) by (field; lra). exact G3.
Qed.
Lemma bc_diff k : (S k < H)%nat -> (m0 + 2 * S k <= 177)%nat -> alc <= bc (S k) - bc k.
Proof.
  intros K1 K2. destruct (bc_bounds k K1 K2) as (_ & _ & B & _). destruct (g_ratio (H - S k) ltac:(lia)) as ((R0 & R1) & R2).
  destruct k as [|k].
  - cbn [bc] in *. change (m0 + 2 * 0)%nat with (m0 + 0)%nat in B. rewrite Nat.add_0_r in B. unfold alc.
    destruct m0_cases as [[-> M]|[-> M]]; rewrite M in B; cbn [INR] in B; lra.
  - assert (K3 : (S k < H)%nat) by lia. destruct (bc_bounds k K3 ltac:(lia)) as (_ & _ & _ & B'). replace (H - S k)%nat with (S (H - S (S k))) in B' by lia.
    set (r := g c (S (H - S (S k))) / g c (H - S (S k))) in *. set (r' := g c (S (S (H - S (S k)))) / g c (S (H - S (S k)))) in *.
    set (m := INR (m0 + 2 * k)) in *. assert (ME : INR (m0 + 2 * S k) = m + 2) by (unfold m; replace (m0 + 2 * S k)%nat with (m0 + 2 * k + 2)%nat by lia; rewrite plus_INR; cbn [INR]; lra). rewrite ME in B.
    assert (M0 : 0 <= m <= 173). { unfold m. split; [apply pos_INR|]. replace 173 with (INR 173) by (rewrite INR_IZR_INZ; f_equal; reflexivity). apply le_INR. lia. }
    set (x := bc (S (S k))) in *. set (y := bc (S k)) in *. clearbody r r' m x y.
    assert (MM : 0 <= (m + 1) * (m + 2) <= 40000) by (split; nra). assert (MD : (m + 2 + 1) * (m + 2 + 2) - (m + 1) * (m + 2) = 4 * m + 10) by ring.
    set (p := (m + 2 + 1) * (m + 2 + 2)) in *. set (q := (m + 1) * (m + 2)) in *. clearbody p q.
    assert (B2 : y <= (1 + 2 / 10 ^ 16) * ((1 + 1 / 10 ^ 15) * (r * q))).
    { eapply Rle_trans; [exact B'|]. apply Rmult_le_compat_l; [lra|]. rewrite <- Rmult_assoc. apply Rmult_le_compat_r; lra. }
    assert (RD : r * p - r * q >= 9.99999) by nra. assert (RQ : 0 <= r * q <= 52000) by (split; nra). assert (RP : 0 <= r * p <= 60000) by (split; nra).
    assert (AL : alc <= 6) by (unfold alc; destruct (Nat.even n); lra).
    assert (x >= r * p - 1 / 1000) by lra. assert (y <= r * q + 1 / 1000) by lra. lra.
Qed.
Theorem rest_sums_nonzero : L <> RtoC 0 -> Rabs (snd L) <= (if Nat.even n then 1.414 else 2.449) -> no_zero_sum n c f L.
Proof.
  intros L0 LI i Hi Fi. fold m0 in Fi |- *.
  assert (M177 : (m0 + 2 * i <= 177)%nat).
  { destruct (tables_ex e) as (c' & f' & T' & _ & _ & F0). destruct (tables_unique e _ _ _ _ TB T') as [EF _].
    destruct (le_lt_dec (m0 + 2 * i) 177) as [Q|Q]; [exact Q|]. exfalso. apply Fi. rewrite EF. apply F0. lia. }
  set (w := Cmult L L).
  assert (E : forall k, (k <= i)%nat -> Csum (fun i => Cmult (RtoC (c (n - (m0 + 2 * i)) * f (m0 + 2 * i)))%nat (Cpow L (m0 + 2 * i))) (S k) = Copp (Cmult (Cpow L m0) (P ac w (S k)))).
  { assert (NE : n = (m0 + 2 * H)%nat) by (unfold m0, H; pose proof (Nat.div_mod n 2 ltac:(lia)); lia). fold H in Hi.
    assert (T : forall k, (k <= i)%nat -> Cmult (RtoC (c (n - (m0 + 2 * k)) * f (m0 + 2 * k)))%nat (Cpow L (m0 + 2 * k)) = Copp (Cmult (Cpow L m0) (Cmult (RtoC (ac k)) (Cpow w k)))).
    { intros k Hk. unfold ac, g. replace (n - (m0 + 2 * k))%nat with (2 * (H - k))%nat by lia. rewrite Cpow_add.
      assert (PW : forall j, Cpow L (2 * j) = Cpow w j). { induction j as [|j IH]; [reflexivity|]. replace (2 * S j)%nat with (S (S (2 * j))) by lia. rewrite !Cpow_S, IH. unfold w. ring. }
      rewrite PW, !RtoC_mult, RtoC_opp. ring. }
    induction k as [|k IH]; intros Hk.
    - change (Cplus (RtoC 0) (Cmult (RtoC (c (n - (m0 + 2 * 0)) * f (m0 + 2 * 0)))%nat (Cpow L (m0 + 2 * 0))) = Copp (Cmult (Cpow L m0) (Cplus (RtoC 0) (Cmult (RtoC (ac 0)) (Cpow w 0))))).
      rewrite (T 0%nat) by lia. ring.
    - specialize (IH ltac:(lia)). set (F := fun i => Cmult (RtoC (c (n - (m0 + 2 * i)) * f (m0 + 2 * i)))%nat (Cpow L (m0 + 2 * i))) in *.
      change (Csum F (S (S k))) with (Cplus (Csum F (S k)) (F (S k))). change (P ac w (S (S k))) with (Cplus (P ac w (S k)) (Cmult (RtoC (ac (S k))) (Cpow w (S k)))).
      rewrite IH. unfold F. rewrite T by lia. ring. }
  rewrite (E i) by lia. intros Q. assert (Q' : Cmult (Cpow L m0) (P ac w (S i)) = RtoC 0) by (replace (Cmult (Cpow L m0) (P ac w (S i))) with (Copp (Copp (Cmult (Cpow L m0) (P ac w (S i))))) by ring; rewrite Q; ring).
  revert Q'. apply Cmult_neq_0; [apply Cpow_neq; exact L0|].
  assert (T2 : snd L * snd L < alc).
  { assert (snd L * snd L = Rabs (snd L) * Rabs (snd L)) as -> by (rewrite <- Rabs_mult, Rabs_pos_eq; [reflexivity|apply Rle_0_sqr]). pose proof (Rabs_pos (snd L)). unfold alc. destruct (Nat.even n); nra. }
  assert (AL : 0 < alc) by (unfold alc; destruct (Nat.even n); lra).
  assert (AP : 0 < ac 0).
  { unfold ac. rewrite Nat.sub_0_r, Nat.add_0_r. destruct (g_facts e c f TB H) as ((G & _) & _); [unfold H; lia|]. apply Rmult_lt_0_compat; [lra|].
    destruct (tables_ex e) as (c' & f' & T' & _ & F & _). destruct (tables_unique e _ _ _ _ TB T') as [EF _]. rewrite EF. specialize (F m0 ltac:(lia)).
    assert (IP : 0 < inv_fact m0) by (unfold inv_fact; apply Rinv_0_lt_compat, INR_fact_lt_0). apply Rabs_le_between in F. lra. }
  pose proof (Rle_0_sqr (fst L)) as SQ. unfold Rsqr in SQ.
  apply (fun A B D E F G => parabola ac bc alc w i A B D E eq_refl F G i (le_n i)); [exact AP|exact AL| | | |].
  - intros k Hk. destruct (bc_bounds k) as (A1 & A2 & _); [unfold H; lia|lia|]. cbn [bc]. field. lra.
  - intros k Hk. apply bc_diff; [unfold H; lia|lia].
  - unfold w, Cmult. cbn [fst]. lra.
  - unfold w, Cmult. cbn [fst snd]. set (l := fst L) in *. set (t := snd L) in *. nra.
Qed.
End N.
