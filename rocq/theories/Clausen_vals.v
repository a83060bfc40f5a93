(** * Values of the Clausen functions at 0 and pi, and decimals of zeta(3),
      zeta(5) to 38 digits.  Nothing here mentions the code. *)
From Coq Require Import Reals Lra Lia Psatz ZArith List Bool.
From Coquelicot Require Import Coquelicot.
From Verif Require Import Cheb Cheb_big Poly_check Fourier Polylog Polylog_series Polylog_eqs Chain Clausen Proof_Li3.
Import ListNotations.
Local Open Scope R_scope.

(** the series at -1 *)
Lemma Lipart_sum n K x : Lipart n (S K) x = sum_f_R0 (fun k => x ^ S k / INR (S k) ^ n) K.
Proof.
  unfold Lipart. induction K as [|K IH].
  - cbn [sum_f_R0 Licoef]. change (INR 1) with 1. unfold Rdiv. ring.
  - rewrite tech5, IH, (tech5 (fun k => x ^ S k / INR (S k) ^ n)). f_equal. unfold Licoef, Rdiv. ring.
Qed.
Lemma powk_bound n x k : (2 <= n)%nat -> Rabs x <= 1 -> Rabs (x ^ S k / INR (S k) ^ n) <= / INR (S k) ^ 2.
Proof.
  intros Hn Hx. unfold Rdiv. rewrite Rabs_mult, <- RPow_abs. pose proof (INR_S_pos k) as P. pose proof (pow_lt _ n P) as P2. apply Rinv_0_lt_compat in P2.
  rewrite (Rabs_pos_eq (/ _)) by lra. pose proof (pow_inv_le n k Hn).
  assert (0 <= Rabs x ^ S k <= 1). { split; [apply pow_le, Rabs_pos|]. rewrite <- (pow1 (S k)). apply pow_incr. split; [apply Rabs_pos|exact Hx]. }
  set (a := Rabs x ^ S k) in *. set (b := / INR (S k) ^ n) in *. nra.
Qed.
Lemma Lipart_rate n K x : (2 <= n)%nat -> Rabs x < 1 -> Rabs (Lipart n (S K) x - ReLi n x) <= rate 3 K.
Proof.
  intros Hn Hx. rewrite Lipart_sum, ReLi_PSeries by exact Hx.
  destruct (tail_rate (fun k => x ^ S k / INR (S k) ^ n)) as [_ T]; [intros k; apply powk_bound; [exact Hn|lra]|].
  replace (PSeries (Licoef n) x) with (Series (fun k => x ^ S k / INR (S k) ^ n)); [apply T|].
  unfold PSeries. rewrite (Series_incr_1 (fun k => Licoef n k * x ^ k)).
  - change (Licoef n 0) with 0. rewrite Rmult_0_l, Rplus_0_l. apply Series_ext. intros k. unfold Licoef, Rdiv. ring.
  - pose proof (CV_radius_inside (Licoef n) x (Licoef_radius n x Hx)) as K1.
    eapply ex_series_ext; [|exact K1]. intros k. cbn. unfold scal; cbn. unfold mult; cbn. rewrite pow_n_pow. ring.
Qed.
Theorem ReLi_m1_series n : (2 <= n)%nat -> is_series (fun k => (-1) ^ S k / INR (S k) ^ n) (ReLi n (-1)).
Proof.
  intros Hn. apply (series_of_rate _ _ 3). intros K. rewrite <- Lipart_sum.
  replace (-1) with (- (1)) by ring.
  apply (left_limit_le (fun x => Rabs (Lipart n (S K) (- x) - ReLi n (- x))) (fun _ => rate 3 K) 0 1); [lra| |apply continuous_const|].
  - apply (continuous_comp (fun x => Lipart n (S K) (- x) - ReLi n (- x)) Rabs); [|apply continuous_Rabs].
    assert (O : continuous (fun x : R => - x) 1) by (apply (ex_derive_continuous (fun x : R => - x)); auto_derive; trivial).
    apply (continuous_minus (fun x => Lipart n (S K) (- x)) (fun x => ReLi n (- x))).
    + apply (continuous_comp (fun x => - x) (Lipart n (S K))); [exact O|apply Lipart_continuous].
    + apply (ReLi_comp_continuous n (fun x => - x)); [exact Hn|exact O].
  - intros x Hx. apply Lipart_rate; [exact Hn|]. rewrite Rabs_Ropp, Rabs_pos_eq; lra.
Qed.
Lemma cosser_PI n : (2 <= n)%nat -> cosser n PI = ReLi n (-1).
Proof.
  intros H. apply (is_series_unique (cterm n PI)). eapply is_series_ext; [|apply ReLi_m1_series; exact H].
  intros k. toR. unfold cterm. rewrite cos_INR_PI. reflexivity.
Qed.

(** the constants of the expansions *)
Lemma Acl_at0 : Acl 0 0 = 0 /\ Acl 1 0 = 0 /\ Acl 2 0 = - ReLi 3 1 /\ Acl 3 0 = 0 /\ Acl 4 0 = ReLi 5 1 /\ Acl 5 0 = 0.
Proof.
  split; [apply Acl_0_0|]. rewrite <- !(cosser_0) by lia. unfold Acl, Clspec. cbn [Nat.even Nat.div2 pow]. rewrite !sinser_0. repeat split; ring.
Qed.
Lemma Bcl_at0 : Bcl 0 0 = - ln 2 /\ Bcl 1 0 = 0 /\ Bcl 2 0 = 3 / 4 * ReLi 3 1 /\ Bcl 3 0 = 0 /\ Bcl 4 0 = - (15 / 16) * ReLi 5 1 /\ Bcl 5 0 = 0.
Proof.
  split. { rewrite Bcl_0_eq. replace (0 / 2) with 0 by lra. rewrite cos_0, Rabs_pos_eq by lra. f_equal. f_equal. ring. }
  unfold Bcl. rewrite Rminus_0_r. unfold Acl, Clspec. cbn [Nat.even Nat.div2 pow]. rewrite !sinser_PI, !cosser_PI by lia.
  pose proof (ReLi_at_m1 3 ltac:(lia)). pose proof (ReLi_at_m1 5 ltac:(lia)). repeat split; lra.
Qed.

(** ** zeta(3) and zeta(5) *)
Definition refN2 := Eval vm_compute in ref_neg 52.
Lemma refN2_ok : ref_check refN2 1 (-1) 2 1 1 1 (10 ^ 39) = true.
Proof. vm_compute. reflexivity. Qed.
Definition m1_check2 (n : nat) (m k e : Z) : bool :=
  let a := evZ (rf_poly refN2 n) (-1) in let d := rf_den refN2 n in
  ((0 <? d) && (0 <=? k) && (Z.abs (- a * 10 ^ k - m * d) <=? e * d))%Z%bool.
Lemma m1_ok2 n m k e : (1 <= n)%nat -> m1_check2 n m k e = true -> Rabs (IZR m / IZR (10 ^ k) - ReLi n (-1)) <= IZR e / IZR (10 ^ k) + / 10 ^ 39.
Proof.
  intros Hn. unfold m1_check2. rewrite !andb_true_iff, Z.ltb_lt, !Z.leb_le. intros [[Hd Hk] H].
  pose proof (ref_bound _ _ _ _ _ _ _ _ refN2_ok n (-1) Hn ltac:(lra)) as B. rewrite evZ_ok in B.
  replace (IZR (10 ^ 39)) with (10 ^ 39) in B by (rewrite pow_IZR; reflexivity).
  set (a := evZ _ _) in *. set (d := rf_den refN2 n) in *.
  replace (Rabs (-1)) with 1 in B by (rewrite Rabs_left; lra).
  assert (D : 0 < IZR d) by (apply (IZR_lt 0); lia). assert (T : 0 < IZR (10 ^ k)) by (apply (IZR_lt 0); apply Z.pow_pos_nonneg; lia).
  assert (A : Rabs (IZR m / IZR (10 ^ k) - (-1) * (IZR a / IZR d)) <= IZR e / IZR (10 ^ k)).
  { apply IZR_le in H. rewrite abs_IZR, minus_IZR, !mult_IZR, opp_IZR in H.
    apply (Rmult_le_reg_r (IZR d * IZR (10 ^ k))); [nra|].
    rewrite <- (Rabs_pos_eq (IZR d * IZR (10 ^ k))) at 1 by nra. rewrite <- Rabs_mult, <- Rabs_Ropp.
    replace (- ((IZR m / IZR (10 ^ k) - -1 * (IZR a / IZR d)) * (IZR d * IZR (10 ^ k)))) with (- IZR a * IZR (10 ^ k) - IZR m * IZR d) by (field; lra).
    replace (IZR e / IZR (10 ^ k) * (IZR d * IZR (10 ^ k))) with (IZR e * IZR d) by (field; lra). exact H. }
  replace (IZR m / IZR (10 ^ k) - ReLi n (-1)) with ((IZR m / IZR (10 ^ k) - -1 * (IZR a / IZR d)) + (-1 * (IZR a / IZR d) - ReLi n (-1))) by ring.
  eapply Rle_trans; [apply Rabs_triang|]. lra.
Qed.
Lemma zeta3_dec : Rabs (1202056903159594285399738161511449990764986 / 10 ^ 42 - ReLi 3 1) <= 3 / 10 ^ 39.
Proof.
  pose proof (m1_ok2 3 (-901542677369695714049803621133587493073740) 42 1000 ltac:(lia) ltac:(vm_compute; reflexivity)) as H.
  replace (IZR (10 ^ 42)) with (10 ^ 42) in H by (rewrite pow_IZR; reflexivity). rewrite Li3_m1 in H. apply Rabs_le_between in H. apply Rabs_le. lra.
Qed.
Lemma zeta5_dec : Rabs (1036927755143369926331365486457034168057081 / 10 ^ 42 - ReLi 5 1) <= 3 / 10 ^ 39.
Proof.
  pose proof (m1_ok2 5 (-972119770446909305935655143553469532553513) 42 1000 ltac:(lia) ltac:(vm_compute; reflexivity)) as H.
  replace (IZR (10 ^ 42)) with (10 ^ 42) in H by (rewrite pow_IZR; reflexivity).
  assert (E : ReLi 5 (-1) = - (15 / 16 * ReLi 5 1)) by (pose proof (ReLi_at_m1 5 ltac:(lia)); lra). rewrite E in H. apply Rabs_le_between in H. apply Rabs_le. lra.
Qed.
