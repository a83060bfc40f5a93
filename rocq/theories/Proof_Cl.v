(** * Accuracy of Cl2 .. Cl6 in exact arithmetic

    The model evaluated over the reals with exact decimal literals, against
    [Clspec n x = sum sin(kx)/k^n] (n even), [sum cos(kx)/k^n] (n odd). *)
From Coq Require Import Reals Lra Lia Psatz ZArith List Bool.
From Flocq Require Import Core.
From Coquelicot Require Import Coquelicot.
From Interval Require Import Tactic.
From Verif Require Import Num NumR Eval_R Consts Model_Cl16 Cl_shape Fourier Polylog Chain Clausen Clausen_vals Clausen_ref Cl_ratio Cl_ratio_l.
Import ListNotations.
Local Open Scope R_scope.

(** ** the Clausen functions are bounded, Lipschitz, odd/even and periodic *)
Lemma Clspec_bound n x : (2 <= n)%nat -> Rabs (Clspec n x) <= 2.
Proof.
  intros H. unfold Clspec. destruct (Nat.even n).
  - pose proof (sinser_rate n 0 x H) as R. pose proof (sterm_bound n x 0 H) as B. unfold psin, sum_f_R0, rate in *. simpl INR in *. rewrite pow1, Rinv_1 in B.
    apply Rabs_le_between in R. apply Rabs_le_between in B. apply Rabs_le. lra.
  - pose proof (cosser_rate n 0 x H) as R. pose proof (cterm_bound n x 0 H) as B. unfold pcos, sum_f_R0, rate in *. simpl INR in *. rewrite pow1, Rinv_1 in B.
    apply Rabs_le_between in R. apply Rabs_le_between in B. apply Rabs_le. lra.
Qed.
Lemma even_SS n : Nat.even (S n) = negb (Nat.even n).
Proof. rewrite Nat.even_succ, <- Nat.negb_even. reflexivity. Qed.
Lemma Clspec_Lip n a b : (3 <= n)%nat -> Rabs (Clspec n a - Clspec n b) <= 2 * Rabs (a - b).
Proof.
  intros H. destruct n as [|n]; [lia|]. 
  apply (bounded_variation (Clspec (S n)) (fun t => (if Nat.even n then -1 else 1) * Clspec n t)). intros t _. split.
  - destruct (Nat.even n) eqn:E; cbn [negb].
    + replace (-1 * Clspec n t) with (- sinser n t) by (unfold Clspec; rewrite E; ring). apply (is_derive_ext (cosser (S n))); [intros; unfold Clspec; rewrite even_SS, E; reflexivity|].
      apply cosser_derive. lia.
    + replace (1 * Clspec n t) with (cosser n t) by (unfold Clspec; rewrite E; ring). apply (is_derive_ext (sinser (S n))); [intros; unfold Clspec; rewrite even_SS, E; reflexivity|].
      apply sinser_derive. lia.
  - rewrite Rabs_mult. replace (Rabs (if Nat.even n then -1 else 1)) with 1 by (destruct (Nat.even n); [rewrite Rabs_left|rewrite Rabs_pos_eq]; lra).
    rewrite Rmult_1_l. apply Clspec_bound. lia.
Qed.
Lemma Cl2_Lip a b : 1 <= a <= 5 -> 1 <= b <= 5 -> Rabs (Clspec 2 a - Clspec 2 b) <= 2 * Rabs (a - b).
Proof.
  intros Ha Hb. 
  assert (G : forall a b, 1 <= a <= 5 -> 1 <= b <= 5 -> b < a -> Rabs (Clspec 2 a - Clspec 2 b) <= 2 * Rabs (a - b)).
  { clear. intros a b Ha Hb L. destruct (MVT_cor2 (sinser 2) (fun t => - ln (2 * sin (t / 2))) b a L) as (t & E & Ht).
    - intros t Ht. apply is_derive_Reals. apply sinser_2_derive. pose proof PI_dec20. lra.
    - change (Clspec 2 a - Clspec 2 b) with (sinser 2 a - sinser 2 b). rewrite E, Rabs_mult. apply Rmult_le_compat_r; [apply Rabs_pos|].
      rewrite Rabs_Ropp. assert (T : 1 <= t <= 5) by lra. clear - T. interval with (i_bisect t). }
  destruct (Rlt_le_dec b a); [apply G; assumption|]. destruct (Req_dec a b) as [->|N].
  - rewrite !Rminus_diag_eq, Rabs_R0 by reflexivity. lra.
  - rewrite (Rabs_minus_sym a b), Rabs_minus_sym. apply G; lra.
Qed.
Lemma Clspec_Lip' n a b : (2 <= n)%nat -> 1 <= a <= 5 -> 1 <= b <= 5 -> Rabs (Clspec n a - Clspec n b) <= 2 * Rabs (a - b).
Proof. intros H Ha Hb. destruct (Nat.eq_dec n 2) as [->|]; [apply Cl2_Lip; assumption|apply Clspec_Lip; lia]. Qed.

Definition par (n : nat) : R := if Nat.even n then -1 else 1.
Lemma sin_kper k x (m : Z) : sin (INR (S k) * (x + 2 * PI * IZR m)) = sin (INR (S k) * x).
Proof.
  replace (INR (S k) * (x + 2 * PI * IZR m)) with (INR (S k) * x + IZR (2 * (Z.of_nat (S k) * m)) * PI) by (rewrite INR_IZR_INZ, !mult_IZR; ring).
  rewrite mult_IZR. rewrite sin_plus. rewrite (Rmult_assoc 2), (Rmult_comm 2). 
  generalize (Z.of_nat (S k) * m)%Z. intros j. 
  assert (S0 : sin (IZR j * PI * 2) = 0) by (rewrite (Rmult_comm _ 2), sin_2a; rewrite (sin_eq_0_1 (IZR j * PI)); [ring|exists j; reflexivity]).
  assert (C0 : cos (IZR j * PI * 2) = 1) by (rewrite (Rmult_comm _ 2), cos_2a_sin; rewrite (sin_eq_0_1 (IZR j * PI)); [ring|exists j; reflexivity]).
  rewrite S0, C0. ring.
Qed.
Lemma cos_kper k x (m : Z) : cos (INR (S k) * (x + 2 * PI * IZR m)) = cos (INR (S k) * x).
Proof.
  replace (INR (S k) * (x + 2 * PI * IZR m)) with (INR (S k) * x + IZR (2 * (Z.of_nat (S k) * m)) * PI) by (rewrite INR_IZR_INZ, !mult_IZR; ring).
  rewrite mult_IZR. rewrite cos_plus. rewrite (Rmult_assoc 2), (Rmult_comm 2). 
  generalize (Z.of_nat (S k) * m)%Z. intros j. 
  assert (S0 : sin (IZR j * PI * 2) = 0) by (rewrite (Rmult_comm _ 2), sin_2a; rewrite (sin_eq_0_1 (IZR j * PI)); [ring|exists j; reflexivity]).
  assert (C0 : cos (IZR j * PI * 2) = 1) by (rewrite (Rmult_comm _ 2), cos_2a_sin; rewrite (sin_eq_0_1 (IZR j * PI)); [ring|exists j; reflexivity]).
  rewrite S0, C0. ring.
Qed.
Lemma Clspec_per n x m : Clspec n (x + 2 * PI * IZR m) = Clspec n x.
Proof.
  unfold Clspec, sinser, cosser. destruct (Nat.even n); apply Series_ext; intros k; unfold sterm, cterm; f_equal; [apply sin_kper|apply cos_kper].
Qed.
Lemma Clspec_opp n x : Clspec n (- x) = par n * Clspec n x.
Proof.
  unfold Clspec, par, sinser, cosser. destruct (Nat.even n).
  - rewrite <- Series_scal_l. apply Series_ext. intros k. unfold sterm. rewrite Ropp_mult_distr_r_reverse, sin_neg. unfold Rdiv. ring.
  - rewrite <- Series_scal_l. apply Series_ext. intros k. unfold cterm. rewrite Ropp_mult_distr_r_reverse, cos_neg. ring.
Qed.

(** ** the literals *)
Definition Pd : R := IZR 314159265358979324 / 10 ^ 17.
Definition Pl : R := IZR 314159265358979323846264338327950288 / 10 ^ 35.
Definition Sd : R := IZR 628125 / 10 ^ 5 + IZR 19353071795864769253 / 10 ^ 22.
Definition Sl : R := IZR 628125 / 10 ^ 5 + IZR 19353071795864769252867665590057683943 / 10 ^ 40.
Lemma PId_R ep : PId (NumR ep) = Some Pd.
Proof. unfold PId, Pd. cbn [NumR lit]. rewrite litR_dec. p10 17%nat. reflexivity. Qed.
Lemma PIl_R ep : PIl (NumR ep) = Some Pl.
Proof. unfold PIl, Pl. cbn [NumR lit]. rewrite litR_dec. p10 35%nat. reflexivity. Qed.
Lemma p1d_R ep : p1d (NumR ep) = Some (IZR 19353071795864769253 / 10 ^ 22).
Proof. unfold p1d. cbn [NumR lit]. rewrite litR_dec. p10 22%nat. reflexivity. Qed.
Lemma p1l_R ep : p1l (NumR ep) = Some (IZR 19353071795864769252867665590057683943 / 10 ^ 40).
Proof. unfold p1l. cbn [NumR lit]. rewrite litR_dec. p10 40%nat. reflexivity. Qed.
Lemma p0_R : litR 628125 (-5) = IZR 628125 / 10 ^ 5.
Proof. rewrite litR_dec. p10 5%nat. reflexivity. Qed.
Lemma Pd_err : 0 < Pd - PI < 16 / 10 ^ 19.
Proof. unfold Pd. pose proof PI_dec as P. apply Rabs_le_between in P. lra. Qed.
Lemma Pl_err : 0 < PI - Pl < 42 / 10 ^ 37.
Proof. unfold Pl. pose proof PI_dec as P. apply Rabs_le_between in P. lra. Qed.
Lemma Sd_err : Rabs (2 * PI - Sd) <= 1 / 10 ^ 19.
Proof. unfold Sd. pose proof PI_dec as P. apply Rabs_le_between in P. apply Rabs_le. lra. Qed.
Lemma Sl_err : Rabs (2 * PI - Sl) <= 1 / 10 ^ 38.
Proof. unfold Sl. pose proof PI_dec as P. apply Rabs_le_between in P. apply Rabs_le. lra. Qed.
Lemma P28d : Pd * Pd / 8 = - (IZR ud / IZR ed).
Proof. unfold Pd, ud, ed. lra. Qed.
Lemma P28l : Pl * Pl / 8 = - (IZR ul / IZR el).
Proof. unfold Pl, ul, el. lra. Qed.

(** ** combining a quotient close to the reference with the logarithmic terms *)
Lemma comb2N x r e : 0 < x < 8 / 5 -> Rabs (r - eN 2 (x * x)) <= e -> Rabs (x * (1 - ln x + x * x * r) - Clspec 2 x) <= 4096 / 1000 * e + 2 / 10 ^ 37.
Proof.
  intros Hx H. pose proof (Cl2_near x Hx) as C.
  replace (x * (1 - ln x + x * x * r) - Clspec 2 x) with (x ^ 3 * (r - eN 2 (x * x)) + (x * (1 - ln x + x * x * eN 2 (x * x)) - Clspec 2 x)) by ring.
  eapply Rle_trans; [apply Rabs_triang|]. rewrite Rabs_mult, Rabs_pos_eq by (apply pow_le; lra). pose proof (pow_Sb 3 x Hx). pose proof (Rabs_pos (r - eN 2 (x * x))). nra.
Qed.
Lemma comb3N x r e Z d : 0 < x < 8 / 5 -> Rabs (r - eN 3 (x * x)) <= e -> Rabs (Z - z3) <= d -> Rabs (Z + x * x * (r + / 2 * ln x) - Clspec 3 x) <= d + 256 / 100 * e + 3 / 10 ^ 37.
Proof.
  intros Hx H HZ. pose proof (Cl3_near x Hx) as C.
  replace (Z + x * x * (r + / 2 * ln x) - Clspec 3 x) with ((Z - z3) + (x ^ 2 * (r - eN 3 (x * x)) + (z3 + x * x * (eN 3 (x * x) + / 2 * ln x) - Clspec 3 x))) by ring.
  eapply Rle_trans; [apply Rabs_triang|]. rewrite Rplus_assoc. apply Rplus_le_compat; [exact HZ|].
  eapply Rle_trans; [apply Rabs_triang|]. rewrite Rabs_mult, Rabs_pos_eq by (apply pow_le; lra). pose proof (pow_Sb 2 x Hx) as Q. pose proof (Rabs_pos (r - eN 3 (x * x))).
  replace (x * x) with (x ^ 2) in * by ring. nra.
Qed.
Lemma comb4N x r e Z d : 0 < x < 8 / 5 -> Rabs (r - eN 4 (x * x)) <= e -> Rabs (Z - z3) <= d -> Rabs (x * (Z + x * x * (r + / 6 * ln x)) - Clspec 4 x) <= 16 / 10 * d + 4096 / 1000 * e + 3 / 10 ^ 37.
Proof.
  intros Hx H HZ. pose proof (Cl4_near x Hx) as C.
  replace (x * (Z + x * x * (r + / 6 * ln x)) - Clspec 4 x) with (x * (Z - z3) + (x ^ 3 * (r - eN 4 (x * x)) + (x * (z3 + x * x * (eN 4 (x * x) + / 6 * ln x)) - Clspec 4 x))) by ring.
  eapply Rle_trans; [apply Rabs_triang|]. rewrite Rplus_assoc. apply Rplus_le_compat; [rewrite Rabs_mult, (Rabs_pos_eq x) by lra; pose proof (Rabs_pos (Z - z3)); nra|].
  eapply Rle_trans; [apply Rabs_triang|]. rewrite Rabs_mult, Rabs_pos_eq by (apply pow_le; lra). pose proof (pow_Sb 3 x Hx) as Q. pose proof (Rabs_pos (r - eN 4 (x * x))). nra.
Qed.
Lemma comb5N x r e : 0 < x < 8 / 5 -> Rabs (r - eN 5 (x * x)) <= e -> Rabs (r - / 24 * ((x * x) * (x * x)) * ln x - Clspec 5 x) <= e + 3 / 10 ^ 37.
Proof.
  intros Hx H. pose proof (Cl5_near x Hx) as C.
  replace (r - / 24 * ((x * x) * (x * x)) * ln x - Clspec 5 x) with ((r - eN 5 (x * x)) + (eN 5 (x * x) - / 24 * ((x * x) * (x * x)) * ln x - Clspec 5 x)) by ring.
  eapply Rle_trans; [apply Rabs_triang|]. lra.
Qed.
Lemma comb6N x r e : 0 < x < 8 / 5 -> Rabs (r - eN 6 (x * x)) <= e -> Rabs (x * (r - / 120 * ((x * x) * (x * x)) * ln x) - Clspec 6 x) <= 16 / 10 * e + 4 / 10 ^ 37.
Proof.
  intros Hx H. pose proof (Cl6_near x Hx) as C.
  replace (x * (r - / 120 * ((x * x) * (x * x)) * ln x) - Clspec 6 x) with (x * (r - eN 6 (x * x)) + (x * (eN 6 (x * x) - / 120 * ((x * x) * (x * x)) * ln x) - Clspec 6 x)) by ring.
  eapply Rle_trans; [apply Rabs_triang|]. rewrite Rabs_mult, (Rabs_pos_eq x) by lra. pose proof (Rabs_pos (r - eN 6 (x * x))). nra.
Qed.
Lemma refl_pi n w : Clspec n (PI - w) = par n * Clspec n (PI - (- w)).
Proof. rewrite <- Clspec_opp, <- (Clspec_per n (- (PI - - w)) 1). f_equal. ring. Qed.
Lemma combFe n w r e : (n = 2 \/ n = 4 \/ n = 6)%nat -> - (8 / 5) < w < 8 / 5 -> w <> 0 -> Rabs (r - eF n (w * w)) <= e -> Rabs (w * r - Clspec n (PI - w)) <= 16 / 10 * e + 4 / 10 ^ 37.
Proof.
  intros Hn. assert (G : forall w, 0 < w < 8 / 5 -> Rabs (r - eF n (w * w)) <= e -> Rabs (w * r - Clspec n (PI - w)) <= 16 / 10 * e + 4 / 10 ^ 37).
  { clear w. intros w Hw H. assert (C : Rabs (w * eF n (w * w) - Clspec n (PI - w)) <= 2 * / 10 ^ 37 * w).
    { destruct Hn as [-> | [-> | -> ]]; [eapply Rle_trans; [exact (Cl2_far w Hw)|lra]|eapply Rle_trans; [exact (Cl4_far w Hw)|lra]|exact (Cl6_far w Hw)]. }
    replace (w * r - Clspec n (PI - w)) with (w * (r - eF n (w * w)) + (w * eF n (w * w) - Clspec n (PI - w))) by ring.
    eapply Rle_trans; [apply Rabs_triang|]. rewrite Rabs_mult, (Rabs_pos_eq w) by lra. pose proof (Rabs_pos (r - eF n (w * w))). nra. }
  intros Hw N H. destruct (Rlt_le_dec 0 w) as [L|L]; [apply G; [lra|exact H]|].
  rewrite refl_pi. replace (par n) with (-1) by (destruct Hn as [-> | [-> | -> ]]; reflexivity).
  replace (w * r - -1 * Clspec n (PI - - w)) with (- (- w * r - Clspec n (PI - - w))) by ring. rewrite Rabs_Ropp. apply G; [lra|].
  replace (- w * - w) with (w * w) by ring. exact H.
Qed.
Lemma Cl3_far0 : Rabs (eF 3 0 - Clspec 3 PI) <= 2 * / 10 ^ 37.
Proof.
  rewrite e37. cbn [eF]. unfold WF3. W_simp. rewrite z3n_eq'. destruct Bcl_at0 as (_ & _ & B & _). change (Bcl 2 0) with (-1 * (-1 * 1) * (-1 * 1 * Clspec 3 (PI - 0))) in B. rewrite Rminus_0_r in B. fold z3 in B.
  pose proof d42_pos. pose proof dz3_ok as E. pose proof e38_pos. assert (C : Clspec 3 PI = - (3 / 4) * z3) by lra. rewrite C.
  rewrite !Rmult_0_l, Rmult_0_r, Rmult_0_l.
  match goal with |- Rabs ?a <= _ => replace a with (- (3 / 4) * dz3) by (field; lra) end.
  rewrite Rabs_mult, Rabs_left by lra. nra.
Qed.
Lemma Cl5_far0 : Rabs (eF 5 0 - Clspec 5 PI) <= 2 * / 10 ^ 37.
Proof.
  rewrite e37. cbn [eF]. unfold WF5. W_simp. rewrite z5n_eq'. destruct Bcl_at0 as (_ & _ & _ & _ & B & _). change (Bcl 4 0) with (-1 * (-1 * (-1 * (-1 * 1))) * (-1 * (-1 * 1) * Clspec 5 (PI - 0))) in B. rewrite Rminus_0_r in B. fold z5 in B.
  pose proof d42_pos. pose proof dz5_ok as E. pose proof e38_pos. assert (C : Clspec 5 PI = - (15 / 16) * z5) by lra. rewrite C.
  rewrite !Rmult_0_l, Rmult_0_r, Rmult_0_l.
  match goal with |- Rabs ?a <= _ => replace a with (- (15 / 16) * dz5) by (field; lra) end.
  rewrite Rabs_mult, Rabs_left by lra. nra.
Qed.
Lemma combFo n w r e : (n = 3 \/ n = 5)%nat -> - (8 / 5) < w < 8 / 5 -> Rabs (r - eF n (w * w)) <= e -> Rabs (r - Clspec n (PI - w)) <= e + 2 / 10 ^ 37.
Proof.
  intros Hn. assert (G : forall w, 0 <= w < 8 / 5 -> Rabs (r - eF n (w * w)) <= e -> Rabs (r - Clspec n (PI - w)) <= e + 2 / 10 ^ 37).
  { clear w. intros w Hw H. assert (C : Rabs (eF n (w * w) - Clspec n (PI - w)) <= 2 * / 10 ^ 37).
    { destruct (Req_dec w 0) as [->|N].
      - rewrite Rmult_0_l, Rminus_0_r. destruct Hn as [-> | -> ]; [exact Cl3_far0|exact Cl5_far0].
      - destruct Hn as [-> | -> ]; [eapply Rle_trans; [exact (Cl3_far w ltac:(lra))|lra]|exact (Cl5_far w ltac:(lra))]. }
    replace (r - Clspec n (PI - w)) with ((r - eF n (w * w)) + (eF n (w * w) - Clspec n (PI - w))) by ring.
    eapply Rle_trans; [apply Rabs_triang|]. lra. }
  intros Hw H. destruct (Rle_lt_dec 0 w) as [L|L]; [apply G; [lra|exact H]|].
  rewrite refl_pi. replace (par n) with 1 by (destruct Hn as [-> | -> ]; reflexivity). rewrite Rmult_1_l. apply G; [lra|].
  replace (- w * - w) with (w * w) by ring. exact H.
Qed.
(** the code computes at pi - (P - x) instead of x *)
Lemma far_arg n P d x v e : (2 <= n)%nat -> Rabs (P - PI) <= d -> d <= / 10 -> 15 / 10 <= x <= 37 / 10 ->
  Rabs (v - Clspec n (PI - (P - x))) <= e -> Rabs (v - Clspec n x) <= e + 2 * d.
Proof.
  intros Hn HP Hd Hx H. pose proof (Clspec_Lip' n (PI - (P - x)) x Hn ltac:(apply Rabs_le_between in HP; lra) ltac:(lra)) as L.
  replace (PI - (P - x) - x) with (- (P - PI)) in L by ring. rewrite Rabs_Ropp in L.
  replace (v - Clspec n x) with ((v - Clspec n (PI - (P - x))) + (Clspec n (PI - (P - x)) - Clspec n x)) by ring.
  eapply Rle_trans; [apply Rabs_triang|]. lra.
Qed.

(** ** the cores on (0, P) *)
Lemma half_d x : 0 < x -> x < Pd / 2 -> 0 < x < 8 / 5 /\ 0 <= x * x <= 987 / 400.
Proof. intros H0 H. pose proof Pd_err. pose proof PI_dec20. split; [lra|]. split; nra. Qed.
Lemma half_l x : 0 < x -> x < Pl / 2 -> 0 < x < 8 / 5 /\ 0 <= x * x <= 987 / 400.
Proof. intros H0 H. pose proof Pl_err. pose proof PI_dec20. split; [lra|]. split; nra. Qed.
Lemma sub_d y : y - Pd * Pd / 8 = y + IZR ud / IZR ed. Proof. rewrite P28d. ring. Qed.
Lemma sub_l y : y - Pl * Pl / 8 = y + IZR ul / IZR el. Proof. rewrite P28l. ring. Qed.
Definition Z3d : R := IZR 12020569031595943 / 10 ^ 16.
Definition Z5d : R := IZR 10369277551433699 / 10 ^ 16.
Definition Z3l : R := IZR 12020569031595942853997381615114499908 / 10 ^ 37.
Definition Z5l : R := IZR 1036927755143369926331365486457034168057 / 10 ^ 39.
Lemma lit_Z3d : litR 12020569031595943 (-16) = Z3d. Proof. unfold Z3d. rewrite litR_dec. p10 16%nat. reflexivity. Qed.
Lemma lit_Z5d : litR 10369277551433699 (-16) = Z5d. Proof. unfold Z5d. rewrite litR_dec. p10 16%nat. reflexivity. Qed.
Lemma lit_Z3l : litR 12020569031595942853997381615114499908 (-37) = Z3l. Proof. unfold Z3l. rewrite litR_dec. p10 37%nat. reflexivity. Qed.
Lemma lit_Z5l : litR 1036927755143369926331365486457034168057 (-39) = Z5l. Proof. unfold Z5l. rewrite litR_dec. p10 39%nat. reflexivity. Qed.
Lemma Z3d_err : Rabs (Z3d - z3) <= 16 / 10 ^ 18.
Proof. pose proof z3_err as H. rewrite d42_eq in H. unfold z3n in H. apply Rabs_le_between in H. unfold Z3d. apply Rabs_le. lra. Qed.
Lemma Z5d_err : Rabs (Z5d - z5) <= 3 / 10 ^ 17.
Proof. pose proof z5_err as H. rewrite d42_eq in H. unfold z5n in H. apply Rabs_le_between in H. unfold Z5d. apply Rabs_le. lra. Qed.
Lemma Z3l_err : Rabs (Z3l - z3) <= 4 / 10 ^ 38.
Proof. pose proof z3_err as H. rewrite d42_eq in H. unfold z3n in H. apply Rabs_le_between in H. unfold Z3l. apply Rabs_le. lra. Qed.
Lemma Z5l_err : Rabs (Z5l - z5) <= 1 / 10 ^ 38.
Proof. pose proof z5_err as H. rewrite d42_eq in H. unfold z5n in H. apply Rabs_le_between in H. unfold Z5l. apply Rabs_le. lra. Qed.
Ltac core_start := cbv zeta; rewrite ?PId_R, ?PIl_R; cbn [NumR lit div mul sub add ltb nlog car ocmp lift2];
  rewrite ?litR_int, ?litR_half, ?lit_Z3d, ?lit_Z5d, ?lit_Z3l, ?lit_Z5l; rewrite ?(odiv_some _ 2), ?(odiv_some _ 8), ?(odiv_some 1 6), ?(odiv_some 1 24), ?(odiv_some 1 120) by lra; cbn [ocmp lift2].
Lemma core2d ep x : 0 < x < Pd + / 2 -> x <> Pd -> exists v, Cl2_d_core (NumR ep) (Some x) = Some v /\ Rabs (v - Clspec 2 x) <= 3 / 10 ^ 17.
Proof.
  intros Hx N0. unfold Cl2_d_core. core_start. destruct (Rlt_le_dec x (Pd / 2)) as [L|L].
  - rewrite Rltb_true by exact L. destruct (half_d x ltac:(tauto) L) as [Hs Hy]. 
    destruct (r2dN ep (x * x) Hy) as (p & q & Ep & Eq & Q0 & H). rewrite Ep, Eq. cbn [lift2].
    rewrite odiv_some, olog_some by lra. cbn [lift2]. eexists. split; [reflexivity|].
    match goal with |- Rabs (?a - _) <= _ => replace a with (x * (1 - ln x + x * x * (p / q))) by (field; lra) end.
    eapply Rle_trans; [apply (comb2N _ _ _ Hs H)|lra].
  - rewrite Rltb_false by exact L. cbn [lift2]. rewrite sub_d. pose proof Pd_err as PE. pose proof PI_dec20 as PD.
    assert (Hw : - (8 / 5) < Pd - x < 8 / 5) by lra.
    assert (Hy : 0 <= (Pd - x) * (Pd - x) <= 987 / 400).
    { assert (W2 : - (15708 / 10000) <= Pd - x <= 15708 / 10000) by lra. clear - W2. revert W2. generalize (Pd - x). intros w W2. nra. }
    destruct (r2dF ep _ Hy) as (p & q & Ep & Eq & Q0 & H). rewrite Ep, Eq. cbn [lift2]. rewrite odiv_some by lra. eexists. split; [reflexivity|].
    eapply Rle_trans; [apply (far_arg 2 Pd (16 / 10 ^ 19) x); [lia|apply Rabs_le; lra|lra|lra|]|].
    + match goal with |- Rabs (?a - _) <= _ => replace a with ((Pd - x) * (p / q)) by (field; lra) end. apply (combFe 2 _ _ _ ltac:(tauto) Hw ltac:(lra) H).
    + lra.
Qed.
Lemma core3d ep x : 0 < x < Pd + / 2 -> exists v, Cl3_d_core (NumR ep) (Some x) = Some v /\ Rabs (v - Clspec 3 x) <= 1 / 10 ^ 16.
Proof.
  intros Hx. unfold Cl3_d_core. core_start. destruct (Rlt_le_dec x (Pd / 2)) as [L|L].
  - rewrite Rltb_true by exact L. destruct (half_d x ltac:(tauto) L) as [Hs Hy]. 
    destruct (r3dN ep (x * x) Hy) as (p & q & Ep & Eq & Q0 & H). rewrite Ep, Eq. cbn [lift2].
    rewrite odiv_some, olog_some by lra. cbn [lift2]. eexists. split; [reflexivity|].
    match goal with |- Rabs (?a - _) <= _ => replace a with (Z3d + x * x * (p / q + / 2 * ln x)) by (field; lra) end.
    eapply Rle_trans; [apply (comb3N _ _ _ _ _ Hs H Z3d_err)|lra].
  - rewrite Rltb_false by exact L. cbn [lift2]. rewrite sub_d. pose proof Pd_err as PE. pose proof PI_dec20 as PD.
    assert (Hw : - (8 / 5) < Pd - x < 8 / 5) by lra.
    assert (Hy : 0 <= (Pd - x) * (Pd - x) <= 987 / 400).
    { assert (W2 : - (15708 / 10000) <= Pd - x <= 15708 / 10000) by lra. clear - W2. revert W2. generalize (Pd - x). intros w W2. nra. }
    destruct (r3dF ep _ Hy) as (p & q & Ep & Eq & Q0 & H). rewrite Ep, Eq. cbn [lift2]. rewrite odiv_some by lra. eexists. split; [reflexivity|].
    eapply Rle_trans; [apply (far_arg 3 Pd (16 / 10 ^ 19) x); [lia|apply Rabs_le; lra|lra|lra|]|].
    + apply (combFo 3 _ _ _ ltac:(tauto) Hw H).
    + lra.
Qed.
Lemma core4d ep x : 0 < x < Pd + / 2 -> x <> Pd -> exists v, Cl4_d_core (NumR ep) (Some x) = Some v /\ Rabs (v - Clspec 4 x) <= 1 / 10 ^ 16.
Proof.
  intros Hx N0. unfold Cl4_d_core. core_start. destruct (Rlt_le_dec x (Pd / 2)) as [L|L].
  - rewrite Rltb_true by exact L. destruct (half_d x ltac:(tauto) L) as [Hs Hy]. 
    destruct (r4dN ep (x * x) Hy) as (p & q & Ep & Eq & Q0 & H). rewrite Ep, Eq. cbn [lift2].
    rewrite odiv_some, olog_some by lra. cbn [lift2]. eexists. split; [reflexivity|].
    match goal with |- Rabs (?a - _) <= _ => replace a with (x * (Z3d + x * x * (p / q + / 6 * ln x))) by (field; lra) end.
    eapply Rle_trans; [apply (comb4N _ _ _ _ _ Hs H Z3d_err)|lra].
  - rewrite Rltb_false by exact L. cbn [lift2]. rewrite sub_d. pose proof Pd_err as PE. pose proof PI_dec20 as PD.
    assert (Hw : - (8 / 5) < Pd - x < 8 / 5) by lra.
    assert (Hy : 0 <= (Pd - x) * (Pd - x) <= 987 / 400).
    { assert (W2 : - (15708 / 10000) <= Pd - x <= 15708 / 10000) by lra. clear - W2. revert W2. generalize (Pd - x). intros w W2. nra. }
    destruct (r4dF ep _ Hy) as (p & q & Ep & Eq & Q0 & H). rewrite Ep, Eq. cbn [lift2]. rewrite odiv_some by lra. eexists. split; [reflexivity|].
    eapply Rle_trans; [apply (far_arg 4 Pd (16 / 10 ^ 19) x); [lia|apply Rabs_le; lra|lra|lra|]|].
    + match goal with |- Rabs (?a - _) <= _ => replace a with ((Pd - x) * (p / q)) by (field; lra) end. apply (combFe 4 _ _ _ ltac:(tauto) Hw ltac:(lra) H).
    + lra.
Qed.
Lemma core5d ep x : 0 < x < Pd + / 2 -> exists v, Cl5_d_core (NumR ep) (Some x) = Some v /\ Rabs (v - Clspec 5 x) <= 7 / 10 ^ 17.
Proof.
  intros Hx. unfold Cl5_d_core. core_start. destruct (Rlt_le_dec x (Pd / 2)) as [L|L].
  - rewrite Rltb_true by exact L. destruct (half_d x ltac:(tauto) L) as [Hs Hy]. 
    destruct (r5dN ep (x * x) Hy) as (p & q & Ep & Eq & Q0 & H). rewrite Ep, Eq. cbn [lift2].
    rewrite odiv_some, olog_some by lra. cbn [lift2]. eexists. split; [reflexivity|].
    match goal with |- Rabs (?a - _) <= _ => replace a with (p / q - / 24 * ((x * x) * (x * x)) * ln x) by (field; lra) end.
    eapply Rle_trans; [apply (comb5N _ _ _ Hs H)|lra].
  - rewrite Rltb_false by exact L. cbn [lift2]. rewrite sub_d. pose proof Pd_err as PE. pose proof PI_dec20 as PD.
    assert (Hw : - (8 / 5) < Pd - x < 8 / 5) by lra.
    assert (Hy : 0 <= (Pd - x) * (Pd - x) <= 987 / 400).
    { assert (W2 : - (15708 / 10000) <= Pd - x <= 15708 / 10000) by lra. clear - W2. revert W2. generalize (Pd - x). intros w W2. nra. }
    destruct (r5dF ep _ Hy) as (p & q & Ep & Eq & Q0 & H). rewrite Ep, Eq. cbn [lift2]. rewrite odiv_some by lra. eexists. split; [reflexivity|].
    eapply Rle_trans; [apply (far_arg 5 Pd (16 / 10 ^ 19) x); [lia|apply Rabs_le; lra|lra|lra|]|].
    + apply (combFo 5 _ _ _ ltac:(tauto) Hw H).
    + lra.
Qed.
Lemma core6d ep x : 0 < x < Pd + / 2 -> x <> Pd -> exists v, Cl6_d_core (NumR ep) (Some x) = Some v /\ Rabs (v - Clspec 6 x) <= 6 / 10 ^ 16.
Proof.
  intros Hx N0. unfold Cl6_d_core. core_start. destruct (Rlt_le_dec x (Pd / 2)) as [L|L].
  - rewrite Rltb_true by exact L. destruct (half_d x ltac:(tauto) L) as [Hs Hy]. 
    destruct (r6dN ep (x * x) Hy) as (p & q & Ep & Eq & Q0 & H). rewrite Ep, Eq. cbn [lift2].
    rewrite odiv_some, olog_some by lra. cbn [lift2]. eexists. split; [reflexivity|].
    match goal with |- Rabs (?a - _) <= _ => replace a with (x * (p / q - / 120 * ((x * x) * (x * x)) * ln x)) by (field; lra) end.
    eapply Rle_trans; [apply (comb6N _ _ _ Hs H)|lra].
  - rewrite Rltb_false by exact L. cbn [lift2]. rewrite sub_d. pose proof Pd_err as PE. pose proof PI_dec20 as PD.
    assert (Hw : - (8 / 5) < Pd - x < 8 / 5) by lra.
    assert (Hy : 0 <= (Pd - x) * (Pd - x) <= 987 / 400).
    { assert (W2 : - (15708 / 10000) <= Pd - x <= 15708 / 10000) by lra. clear - W2. revert W2. generalize (Pd - x). intros w W2. nra. }
    destruct (r6dF ep _ Hy) as (p & q & Ep & Eq & Q0 & H). rewrite Ep, Eq. cbn [lift2]. rewrite odiv_some by lra. eexists. split; [reflexivity|].
    eapply Rle_trans; [apply (far_arg 6 Pd (16 / 10 ^ 19) x); [lia|apply Rabs_le; lra|lra|lra|]|].
    + match goal with |- Rabs (?a - _) <= _ => replace a with ((Pd - x) * (p / q)) by (field; lra) end. apply (combFe 6 _ _ _ ltac:(tauto) Hw ltac:(lra) H).
    + lra.
Qed.
Lemma core2l ep x : 0 < x < Pl + / 2 -> x <> Pl -> exists v, Cl2_l_core (NumR ep) (Some x) = Some v /\ Rabs (v - Clspec 2 x) <= 1 / 10 ^ 35.
Proof.
  intros Hx N0. unfold Cl2_l_core. core_start. destruct (Rlt_le_dec x (Pl / 2)) as [L|L].
  - rewrite Rltb_true by exact L. destruct (half_l x ltac:(tauto) L) as [Hs Hy]. rewrite sub_l.
    destruct (r2lN ep (x * x) Hy) as (p & q & Ep & Eq & Q0 & H). rewrite Ep, Eq. cbn [lift2].
    rewrite odiv_some, olog_some by lra. cbn [lift2]. eexists. split; [reflexivity|].
    match goal with |- Rabs (?a - _) <= _ => replace a with (x * (1 - ln x + x * x * (p / q))) by (field; lra) end.
    eapply Rle_trans; [apply (comb2N _ _ _ Hs H)|lra].
  - rewrite Rltb_false by exact L. cbn [lift2]. rewrite sub_l. pose proof Pl_err as PE. pose proof PI_dec20 as PD.
    assert (Hw : - (8 / 5) < Pl - x < 8 / 5) by lra.
    assert (Hy : 0 <= (Pl - x) * (Pl - x) <= 987 / 400).
    { assert (W2 : - (15708 / 10000) <= Pl - x <= 15708 / 10000) by lra. clear - W2. revert W2. generalize (Pl - x). intros w W2. nra. }
    destruct (r2lF ep _ Hy) as (p & q & Ep & Eq & Q0 & H). rewrite Ep, Eq. cbn [lift2]. rewrite odiv_some by lra. eexists. split; [reflexivity|].
    eapply Rle_trans; [apply (far_arg 2 Pl (42 / 10 ^ 37) x); [lia|apply Rabs_le; lra|lra|lra|]|].
    + match goal with |- Rabs (?a - _) <= _ => replace a with ((Pl - x) * (p / q)) by (field; lra) end. apply (combFe 2 _ _ _ ltac:(tauto) Hw ltac:(lra) H).
    + lra.
Qed.
Lemma core3l ep x : 0 < x < Pl + / 2 -> exists v, Cl3_l_core (NumR ep) (Some x) = Some v /\ Rabs (v - Clspec 3 x) <= 7 / 10 ^ 26.
Proof.
  intros Hx. unfold Cl3_l_core. core_start. destruct (Rlt_le_dec x (Pl / 2)) as [L|L].
  - rewrite Rltb_true by exact L. destruct (half_l x ltac:(tauto) L) as [Hs Hy]. rewrite sub_l.
    destruct (r3lN ep (x * x) Hy) as (p & q & Ep & Eq & Q0 & H). rewrite Ep, Eq. cbn [lift2].
    rewrite odiv_some, olog_some by lra. cbn [lift2]. eexists. split; [reflexivity|].
    match goal with |- Rabs (?a - _) <= _ => replace a with (Z3l + x * x * (p / q + / 2 * ln x)) by (field; lra) end.
    eapply Rle_trans; [apply (comb3N _ _ _ _ _ Hs H Z3l_err)|lra].
  - rewrite Rltb_false by exact L. cbn [lift2]. rewrite sub_l. pose proof Pl_err as PE. pose proof PI_dec20 as PD.
    assert (Hw : - (8 / 5) < Pl - x < 8 / 5) by lra.
    assert (Hy : 0 <= (Pl - x) * (Pl - x) <= 987 / 400).
    { assert (W2 : - (15708 / 10000) <= Pl - x <= 15708 / 10000) by lra. clear - W2. revert W2. generalize (Pl - x). intros w W2. nra. }
    destruct (r3lF ep _ Hy) as (p & q & Ep & Eq & Q0 & H). rewrite Ep, Eq. cbn [lift2]. rewrite odiv_some by lra. eexists. split; [reflexivity|].
    eapply Rle_trans; [apply (far_arg 3 Pl (42 / 10 ^ 37) x); [lia|apply Rabs_le; lra|lra|lra|]|].
    + apply (combFo 3 _ _ _ ltac:(tauto) Hw H).
    + lra.
Qed.
Lemma core4l ep x : 0 < x < Pl + / 2 -> x <> Pl -> exists v, Cl4_l_core (NumR ep) (Some x) = Some v /\ Rabs (v - Clspec 4 x) <= 1 / 10 ^ 25.
Proof.
  intros Hx N0. unfold Cl4_l_core. core_start. destruct (Rlt_le_dec x (Pl / 2)) as [L|L].
  - rewrite Rltb_true by exact L. destruct (half_l x ltac:(tauto) L) as [Hs Hy]. rewrite sub_l.
    destruct (r4lN ep (x * x) Hy) as (p & q & Ep & Eq & Q0 & H). rewrite Ep, Eq. cbn [lift2].
    rewrite odiv_some, olog_some by lra. cbn [lift2]. eexists. split; [reflexivity|].
    match goal with |- Rabs (?a - _) <= _ => replace a with (x * (Z3l + x * x * (p / q + / 6 * ln x))) by (field; lra) end.
    eapply Rle_trans; [apply (comb4N _ _ _ _ _ Hs H Z3l_err)|lra].
  - rewrite Rltb_false by exact L. cbn [lift2]. rewrite sub_l. pose proof Pl_err as PE. pose proof PI_dec20 as PD.
    assert (Hw : - (8 / 5) < Pl - x < 8 / 5) by lra.
    assert (Hy : 0 <= (Pl - x) * (Pl - x) <= 987 / 400).
    { assert (W2 : - (15708 / 10000) <= Pl - x <= 15708 / 10000) by lra. clear - W2. revert W2. generalize (Pl - x). intros w W2. nra. }
    destruct (r4lF ep _ Hy) as (p & q & Ep & Eq & Q0 & H). rewrite Ep, Eq. cbn [lift2]. rewrite odiv_some by lra. eexists. split; [reflexivity|].
    eapply Rle_trans; [apply (far_arg 4 Pl (42 / 10 ^ 37) x); [lia|apply Rabs_le; lra|lra|lra|]|].
    + match goal with |- Rabs (?a - _) <= _ => replace a with ((Pl - x) * (p / q)) by (field; lra) end. apply (combFe 4 _ _ _ ltac:(tauto) Hw ltac:(lra) H).
    + lra.
Qed.
Lemma core5l ep x : 0 < x < Pl + / 2 -> exists v, Cl5_l_core (NumR ep) (Some x) = Some v /\ Rabs (v - Clspec 5 x) <= 7 / 10 ^ 26.
Proof.
  intros Hx. unfold Cl5_l_core. core_start. destruct (Rlt_le_dec x (Pl / 2)) as [L|L].
  - rewrite Rltb_true by exact L. destruct (half_l x ltac:(tauto) L) as [Hs Hy]. 
    destruct (r5lN ep (x * x) Hy) as (p & q & Ep & Eq & Q0 & H). rewrite Ep, Eq. cbn [lift2].
    rewrite odiv_some, olog_some by lra. cbn [lift2]. eexists. split; [reflexivity|].
    match goal with |- Rabs (?a - _) <= _ => replace a with (p / q - / 24 * ((x * x) * (x * x)) * ln x) by (field; lra) end.
    eapply Rle_trans; [apply (comb5N _ _ _ Hs H)|lra].
  - rewrite Rltb_false by exact L. cbn [lift2]. rewrite sub_l. pose proof Pl_err as PE. pose proof PI_dec20 as PD.
    assert (Hw : - (8 / 5) < Pl - x < 8 / 5) by lra.
    assert (Hy : 0 <= (Pl - x) * (Pl - x) <= 987 / 400).
    { assert (W2 : - (15708 / 10000) <= Pl - x <= 15708 / 10000) by lra. clear - W2. revert W2. generalize (Pl - x). intros w W2. nra. }
    destruct (r5lF ep _ Hy) as (p & q & Ep & Eq & Q0 & H). rewrite Ep, Eq. cbn [lift2]. rewrite odiv_some by lra. eexists. split; [reflexivity|].
    eapply Rle_trans; [apply (far_arg 5 Pl (42 / 10 ^ 37) x); [lia|apply Rabs_le; lra|lra|lra|]|].
    + apply (combFo 5 _ _ _ ltac:(tauto) Hw H).
    + lra.
Qed.
Lemma core6l ep x : 0 < x < Pl + / 2 -> x <> Pl -> exists v, Cl6_l_core (NumR ep) (Some x) = Some v /\ Rabs (v - Clspec 6 x) <= 1 / 10 ^ 25.
Proof.
  intros Hx N0. unfold Cl6_l_core. core_start. destruct (Rlt_le_dec x (Pl / 2)) as [L|L].
  - rewrite Rltb_true by exact L. destruct (half_l x ltac:(tauto) L) as [Hs Hy]. 
    destruct (r6lN ep (x * x) Hy) as (p & q & Ep & Eq & Q0 & H). rewrite Ep, Eq. cbn [lift2].
    rewrite odiv_some, olog_some by lra. cbn [lift2]. eexists. split; [reflexivity|].
    match goal with |- Rabs (?a - _) <= _ => replace a with (x * (p / q - / 120 * ((x * x) * (x * x)) * ln x)) by (field; lra) end.
    eapply Rle_trans; [apply (comb6N _ _ _ Hs H)|lra].
  - rewrite Rltb_false by exact L. cbn [lift2]. rewrite sub_l. pose proof Pl_err as PE. pose proof PI_dec20 as PD.
    assert (Hw : - (8 / 5) < Pl - x < 8 / 5) by lra.
    assert (Hy : 0 <= (Pl - x) * (Pl - x) <= 987 / 400).
    { assert (W2 : - (15708 / 10000) <= Pl - x <= 15708 / 10000) by lra. clear - W2. revert W2. generalize (Pl - x). intros w W2. nra. }
    destruct (r6lF ep _ Hy) as (p & q & Ep & Eq & Q0 & H). rewrite Ep, Eq. cbn [lift2]. rewrite odiv_some by lra. eexists. split; [reflexivity|].
    eapply Rle_trans; [apply (far_arg 6 Pl (42 / 10 ^ 37) x); [lia|apply Rabs_le; lra|lra|lra|]|].
    + match goal with |- Rabs (?a - _) <= _ => replace a with ((Pl - x) * (p / q)) by (field; lra) end. apply (combFe 6 _ _ _ ltac:(tauto) Hw ltac:(lra) H).
    + lra.
Qed.
