(** * The power series of (t/2) cot(t/2).  Nothing here mentions the code. *)
From Coq Require Import Reals Lra Lia Psatz ZArith List Bool.
From Coquelicot Require Import Coquelicot.
From Verif Require Import Polylog Polylog_series Fourier Clausen Red Clausen_vals Chain Bern.
Local Open Scope R_scope.

Lemma cos_series t : is_series (fun k => (-1) ^ k / INR (fact (2 * k)) * (t * t) ^ k) (cos t).
Proof.
  unfold cos. destruct (exist_cos (Rsqr t)) as [a A]. apply is_series_Reals. exact A.
Qed.
Lemma sin_series' t : is_series (fun k => (-1) ^ k / INR (fact (2 * k + 1)) * (t * t) ^ k * t) (sin t).
Proof.
  unfold sin. destruct (exist_sin (Rsqr t)) as [a A]. replace (t * a) with (a * t) by ring. apply is_series_scal_r. apply is_series_Reals. exact A.
Qed.
(** e_k = (-1)^k asl(2k): -1/2, zeta(2), zeta(4), ... *)
Definition ek (k : nat) : R := (-1) ^ k * asl (2 * k).
Lemma ek_0 : ek 0 = - / 2. Proof. unfold ek. change (2 * 0)%nat with 0%nat. unfold asl, Dsl. cbn [pow]. ring. Qed.
Lemma ek_S k : ek (S k) = ReLi (2 * S k) 1.
Proof.
  unfold ek. rewrite asl_even by lia. rewrite <- Rmult_assoc, <- Rpow_mult_distr. replace (-1 * -1) with 1 by ring. rewrite pow1. ring.
Qed.
Lemma zeta_le2 n : (2 <= n)%nat -> 0 <= ReLi n 1 <= 2.
Proof.
  intros H. pose proof (ReLi_at_1 n H) as Z. pose proof (ReLi_at_1 2 (le_n 2)) as Z2.
  assert (P : forall k, 0 <= zterm n k <= zterm 2 k).
  { intros k. unfold zterm. split; [left; apply Rinv_0_lt_compat, pow_lt, lt_0_INR; lia|].
    apply Rinv_le_contravar; [apply pow_lt, lt_0_INR; lia|]. apply Rle_pow; [|exact H]. rewrite S_INR. pose proof (pos_INR k). lra. }
  split.
  - rewrite <- (is_series_unique _ _ Z). replace 0 with (Series (fun _ : nat => 0)).
    + apply Series_le; [intros k; split; [lra|apply P]|eexists; exact Z].
    + apply is_series_unique. apply (filterlim_ext (fun _ => 0)); [|apply filterlim_const]. intros j. symmetry. rewrite sum_n_const. apply Rmult_0_r.
  - rewrite <- (is_series_unique _ _ Z). apply Rle_trans with (Series (zterm 2)); [apply Series_le; [exact P|eexists; exact Z2]|].
    rewrite (is_series_unique _ _ Z2). assert (E : ReLi 2 1 = PI ^ 2 / 6).
    { rewrite <- cosser_0 by lia. rewrite cosser_2 by (pose proof PI_RGT_0; lra). field. }
    rewrite E. pose proof Consts.PI_dec20. nra.
Qed.
Lemma ek_bd k : Rabs (ek k) <= 2.
Proof.
  destruct k as [|k]; [rewrite ek_0, Rabs_Ropp, Rabs_pos_eq; lra|]. rewrite ek_S. pose proof (zeta_le2 (2 * S k) ltac:(lia)). rewrite Rabs_pos_eq; lra.
Qed.
Lemma geom_ex s : Rabs s < 1 -> ex_series (fun k => 2 * (s * s) ^ k).
Proof.
  intros H. apply (ex_series_scal_l 2 (fun k => (s * s) ^ k)). apply ex_series_geom. rewrite Rabs_mult. pose proof (Rabs_pos s). nra.
Qed.
Lemma sq_abs_pow s k : Rabs ((s * s) ^ k) = (s * s) ^ k.
Proof. apply Rabs_pos_eq, pow_le. nra. Qed.
Lemma ek_abs s : Rabs s < 1 -> ex_series (fun k => Rabs (ek k * (s * s) ^ k)).
Proof.
  intros H. apply (ex_series_le (fun k => Rabs (ek k * (s * s) ^ k)) (fun k => 2 * (s * s) ^ k)); [|apply geom_ex; exact H].
  intros k. change (Rabs (Rabs (ek k * (s * s) ^ k)) <= 2 * (s * s) ^ k). rewrite Rabs_Rabsolu, Rabs_mult, sq_abs_pow.
  apply Rmult_le_compat_r; [apply pow_le; nra|apply ek_bd].
Qed.
Definition Eser (s : R) : R := Series (fun k => ek k * (s * s) ^ k).
Lemma Eser_is s : Rabs s < 1 -> is_series (fun k => ek k * (s * s) ^ k) (Eser s).
Proof. intros H. apply Series_correct. apply ex_series_Rabs, ek_abs. exact H. Qed.
(** 1 - cos(2 pi s) *)
Definition dk (k : nat) : R := match k with O => 0 | S _ => - ((-1) ^ k * (2 * PI) ^ (2 * k) / INR (fact (2 * k))) end.
Lemma dk_is s : is_series (fun k => dk k * (s * s) ^ k) (1 - cos (2 * PI * s)).
Proof.
  pose proof (cos_series (2 * PI * s)) as C. apply is_series_decr_1.
  assert (C' : is_series (fun k => (-1) ^ (S k) / INR (fact (2 * S k)) * ((2 * PI * s) * (2 * PI * s)) ^ (S k)) (cos (2 * PI * s) - 1)).
  { apply (is_series_incr_1 (fun k => (-1) ^ k / INR (fact (2 * k)) * ((2 * PI * s) * (2 * PI * s)) ^ k)). 
    replace (plus (cos (2 * PI * s) - 1) _) with (cos (2 * PI * s)); [exact C|]. cbn [Nat.mul fact pow]. change (INR 1) with 1. unfold plus. simpl. field. }
  apply is_series_opp in C'. match goal with |- is_series _ ?l => replace l with (opp (cos (2 * PI * s) - 1)) by (unfold plus, opp; simpl; ring) end.
  eapply is_series_ext; [|exact C']. intros k. unfold dk, opp. simpl AbelianGroup.opp.
  change (- ((-1) ^ S k / INR (fact (2 * S k)) * (2 * PI * s * (2 * PI * s)) ^ S k) = - ((-1) ^ S k * (2 * PI) ^ (2 * S k) / INR (fact (2 * S k))) * (s * s) ^ S k).
  replace (2 * PI * s * (2 * PI * s)) with ((2 * PI) ^ 2 * (s * s)) by ring. rewrite (Rpow_mult_distr ((2 * PI) ^ 2) (s * s)), <- (pow_mult (2 * PI) 2). unfold Rdiv. ring.
Qed.
Lemma fact_double k : INR (fact k) <= INR (fact (2 * k)).
Proof. apply le_INR, fact_le. lia. Qed.
Lemma dk_abs s : ex_series (fun k => Rabs (dk k * (s * s) ^ k)).
Proof.
  set (y := (2 * PI) ^ 2 * (s * s)).
  apply (ex_series_le (fun k => Rabs (dk k * (s * s) ^ k)) (fun k => / INR (fact k) * y ^ k)).
  - intros k. change (Rabs (Rabs (dk k * (s * s) ^ k)) <= / INR (fact k) * y ^ k). rewrite Rabs_Rabsolu, Rabs_mult, sq_abs_pow.
    assert (Y : 0 <= y) by (unfold y; apply Rmult_le_pos; [apply pow2_ge_0|nra]).
    destruct k as [|k]; [unfold dk; rewrite Rabs_R0, Rmult_0_l; cbn [fact pow]; change (INR 1) with 1; lra|].
    unfold dk. rewrite Rabs_Ropp. unfold Rdiv. rewrite !Rabs_mult, pow_1_abs, Rmult_1_l.
    rewrite (Rabs_pos_eq ((2 * PI) ^ (2 * S k))) by (apply pow_le; pose proof PI_RGT_0; lra). rewrite (Rabs_pos_eq (/ _)) by (left; apply Rinv_0_lt_compat, INR_fact_lt_0).
    unfold y. rewrite (Rpow_mult_distr ((2 * PI) ^ 2) (s * s)), <- (pow_mult (2 * PI) 2).
    replace (/ INR (fact (S k)) * ((2 * PI) ^ (2 * S k) * (s * s) ^ S k)) with ((2 * PI) ^ (2 * S k) * / INR (fact (S k)) * (s * s) ^ S k) by ring.
    apply Rmult_le_compat_r; [apply pow_le; nra|]. apply Rmult_le_compat_l; [apply pow_le; pose proof PI_RGT_0; lra|].
    apply Rinv_le_contravar; [apply INR_fact_lt_0|apply fact_double].
  - pose proof (is_exp_Reals y) as X. apply is_pseries_R in X. eexists. exact X.
Qed.
(** the recurrence of the Bernoulli numbers as a convolution *)
Lemma conv m : (1 <= m)%nat -> sum_f_R0 (fun k => ek k * dk (m - k)) m = (-1) ^ m * (PI / 2) * (2 * PI) ^ (2 * m - 1) / INR (fact (2 * m - 1)).
Proof.
  intros H. pose proof (asl_rec (2 * m) ltac:(lia)) as A. rewrite tp_sum in A.
  (* split even and odd indices *)
  assert (SP : forall (f : nat -> R) q, sum_f_R0 f (2 * S q) = sum_f_R0 (fun j => f (2 * j)%nat) (S q) + sum_f_R0 (fun j => f (2 * j + 1)%nat) q).
  { intros f q. induction q as [|q IH]; [cbn; ring|]. replace (2 * S (S q))%nat with (S (S (2 * S q))) by lia. rewrite (tech5 f), (tech5 f), IH.
    rewrite (tech5 (fun j => f (2 * j)%nat) (S q)), (tech5 (fun j => f (2 * j + 1)%nat) q).
    replace (2 * S (S q))%nat with (S (S (2 * S q))) by lia. replace (2 * S q + 1)%nat with (S (2 * S q)) by lia. ring. }
  destruct m as [|q]; [lia|]. rewrite SP in A.
  assert (O : sum_f_R0 (fun j => asl (2 * S q - (2 * j + 1)) * (2 * PI) ^ (2 * j + 1) / INR (fact (2 * j + 1))) q = PI / 2 * (2 * PI) ^ (2 * q + 1) / INR (fact (2 * q + 1))).
  { assert (AO : forall i, (i < q)%nat -> asl (2 * S q - (2 * i + 1)) = 0).
    { intros i Hi. replace (2 * S q - (2 * i + 1))%nat with (2 * (q - i) + 1)%nat by lia. apply asl_odd. lia. }
    assert (A1 : asl (2 * S q - (2 * q + 1)) = PI / 2). { replace (2 * S q - (2 * q + 1))%nat with 1%nat by lia. unfold asl, Dsl. field. }
    destruct q as [|q]; [cbn [sum_f_R0]; rewrite A1; reflexivity|]. rewrite tech5, A1. rewrite (sum_eq _ (fun _ => 0) q); [rewrite sum_eq_R0; [ring|reflexivity]|].
    intros i Hi. rewrite AO by lia. unfold Rdiv. ring. }
  rewrite O in A. rewrite (decomp_sum _ (S q)) in A by lia. cbn [Nat.pred] in A. change (2 * 0)%nat with 0%nat in A. rewrite Nat.sub_0_r in A. cbn [pow fact] in A. change (INR 1) with 1 in A.
  replace (2 * S q - 1)%nat with (2 * q + 1)%nat by lia.
  assert (Q : sum_f_R0 (fun i => asl (2 * S q - 2 * S i) * (2 * PI) ^ (2 * S i) / INR (fact (2 * S i))) q = - (PI / 2 * (2 * PI) ^ (2 * q + 1) / INR (fact (2 * q + 1)))) by lra.
  rewrite tech5, Nat.sub_diag. unfold dk at 2. rewrite Rmult_0_r, Rplus_0_r. rewrite sum_rev.
  rewrite (sum_eq _ (fun i => (asl (2 * S q - 2 * S i) * (2 * PI) ^ (2 * S i) / INR (fact (2 * S i))) * - (-1) ^ S q) q).
  - rewrite <- scal_sum, Q. unfold Rdiv. ring.
  - intros i Hi. replace (S q - (q - i))%nat with (S i) by lia. unfold dk, ek. replace (2 * S q - 2 * S i)%nat with (2 * (q - i))%nat by lia.
    assert (E : (-1) ^ S q = (-1) ^ (q - i) * (-1) ^ S i) by (rewrite <- pow_add; f_equal; lia). rewrite E. unfold Rdiv. ring.
Qed.
Theorem Eser_closed s : Rabs s < 1 -> Eser s * (1 - cos (2 * PI * s)) = - (PI * s / 2) * sin (2 * PI * s).
Proof.
  intros H. pose proof (is_series_mult _ _ _ _ (Eser_is s H) (dk_is s) (ek_abs s H) (dk_abs s)) as M.
  pose proof (sin_series' (2 * PI * s)) as SN. apply (is_series_scal_r (- (PI * s / 2))) in SN.
  apply is_series_unique in M. rewrite <- M. clear M. replace (- (PI * s / 2) * sin (2 * PI * s)) with (sin (2 * PI * s) * - (PI * s / 2)) by ring. rewrite <- (is_series_unique _ _ SN).
  assert (X : ex_series (fun n => sum_f_R0 (fun k => ek k * (s * s) ^ k * (dk (n - k) * (s * s) ^ (n - k))) n)).
  { eexists. exact (is_series_mult _ _ _ _ (Eser_is s H) (dk_is s) (ek_abs s H) (dk_abs s)). }
  rewrite (Series_incr_1 _ X). match goal with |- ?a + _ = _ => replace a with 0 by (cbn [sum_f_R0 Nat.sub dk]; ring) end. rewrite Rplus_0_l. apply Series_ext. intros n.
  assert (E : sum_f_R0 (fun k => ek k * (s * s) ^ k * (dk (S n - k) * (s * s) ^ (S n - k))) (S n) = sum_f_R0 (fun k => ek k * dk (S n - k)) (S n) * (s * s) ^ S n).
  { rewrite (Rmult_comm _ ((s * s) ^ S n)), scal_sum. apply sum_eq. intros k Hk.
    assert (P : (s * s) ^ S n = (s * s) ^ k * (s * s) ^ (S n - k)) by (rewrite <- pow_add; f_equal; lia). rewrite P. ring. }
  rewrite E, conv by lia. replace (2 * S n - 1)%nat with (2 * n + 1)%nat by lia.
  replace (2 * PI * s * (2 * PI * s)) with ((2 * PI) ^ 2 * (s * s)) by ring. rewrite (Rpow_mult_distr ((2 * PI) ^ 2) (s * s)), <- (pow_mult (2 * PI) 2), (pow_add (2 * PI)). cbn [pow]. unfold Rdiv. ring.
Qed.
(** b_k = (-1)^k B_2k / (2k)! *)
Definition bk (k : nat) : R := (-1) ^ k * bern (2 * k) / INR (fact (2 * k)).
Lemma bk_ek k : bk k = -2 * ek k / (2 * PI) ^ (2 * k).
Proof.
  unfold bk, ek, bern. pose proof (INR_fact_neq_0 (2 * k)). assert ((2 * PI) ^ (2 * k) <> 0) by (apply pow_nonzero; pose proof PI_RGT_0; lra). field. split; assumption.
Qed.
Lemma bk_0 : bk 0 = 1. Proof. rewrite bk_ek, ek_0. change (2 * 0)%nat with 0%nat. cbn [pow]. field. Qed.
Lemma bk_bd k : Rabs (bk k) <= 4 / (2 * PI) ^ (2 * k).
Proof.
  rewrite bk_ek. assert (P : 0 < (2 * PI) ^ (2 * k)) by (apply pow_lt; pose proof PI_RGT_0; lra). unfold Rdiv. rewrite !Rabs_mult, (Rabs_pos_eq (/ _)) by (left; apply Rinv_0_lt_compat; exact P).
  apply Rmult_le_compat_r; [left; apply Rinv_0_lt_compat; exact P|]. rewrite (Rabs_left (-2)) by lra. pose proof (ek_bd k). lra.
Qed.
(** sum_{k>=0} b_k t^(2k) = (t/2) cot(t/2) on 0 < t < 2 pi *)
Theorem cot_series t : 0 < t < 2 * PI -> is_series (fun k => bk k * t ^ (2 * k)) (t / 2 * (cos (t / 2) / sin (t / 2))).
Proof.
  intros Ht. pose proof PI_RGT_0 as HP. set (s := t / (2 * PI)).
  assert (Hs : 0 < s < 1). { unfold s. split; [apply Rdiv_lt_0_compat; lra|]. apply (Rmult_lt_reg_r (2 * PI)); [lra|]. unfold Rdiv. rewrite Rmult_assoc, Rinv_l by lra. lra. }
  assert (As : Rabs s < 1) by (rewrite Rabs_pos_eq; lra). pose proof (Eser_closed s As) as E.
  assert (T : 2 * PI * s = t) by (unfold s; field; lra). rewrite T in E.
  assert (SN : 0 < sin (t / 2)) by (apply sin_gt_0; lra).
  assert (C1 : 1 - cos t = 2 * (sin (t / 2) * sin (t / 2))). { pose proof (cos_2a_sin (t / 2)) as D. replace (2 * (t / 2)) with t in D by field. lra. }
  assert (S1 : sin t = 2 * sin (t / 2) * cos (t / 2)). { pose proof (sin_2a (t / 2)) as D. replace (2 * (t / 2)) with t in D by field. exact D. }
  assert (V : -2 * Eser s = t / 2 * (cos (t / 2) / sin (t / 2))).
  { rewrite C1, S1 in E. replace (PI * s / 2) with (t / 4) in E by (rewrite <- T; field).
    apply (Rmult_eq_reg_r (2 * (sin (t / 2) * sin (t / 2)))); [|nra].
    replace (-2 * Eser s * (2 * (sin (t / 2) * sin (t / 2)))) with (-2 * (Eser s * (2 * (sin (t / 2) * sin (t / 2))))) by ring. rewrite E. field. lra. }
  rewrite <- V. pose proof (is_series_scal_l (-2) _ _ (Eser_is s As)) as X. eapply is_series_ext; [|exact X].
  intros k. toR. change (-2 * (ek k * (s * s) ^ k) = bk k * t ^ (2 * k)). rewrite bk_ek, <- T. rewrite (Rpow_mult_distr (2 * PI) s). assert ((2 * PI) ^ (2 * k) <> 0) by (apply pow_nonzero; lra).
  rewrite (pow_mult s 2 k). replace (s ^ 2) with (s * s) by ring. field. assumption.
Qed.
(** truncation after K terms *)
Theorem cot_trunc t q K : 0 < t < 2 * PI -> t <= q * (2 * PI) -> q < 1 ->
  Rabs (sum_f_R0 (fun k => bk k * t ^ (2 * k)) K - t / 2 * (cos (t / 2) / sin (t / 2))) <= 4 * q ^ (2 * S K) / (1 - q ^ 2).
Proof.
  intros Ht Hq Q1. pose proof PI_RGT_0 as HP. assert (Q0 : 0 < q) by nra.
  pose proof (cot_series t Ht) as CS. assert (X : ex_series (fun k => bk k * t ^ (2 * k))) by (eexists; exact CS).
  rewrite <- (is_series_unique _ _ CS). rewrite (Series_incr_n _ (S K)) by (lia || exact X). cbn [Nat.pred].
  replace (_ - _) with (- Series (fun k => bk (S K + k) * t ^ (2 * (S K + k)))) by ring. rewrite Rabs_Ropp.
  assert (B : forall k, Rabs (bk (S K + k) * t ^ (2 * (S K + k))) <= 4 * q ^ (2 * S K) * (q ^ 2) ^ k).
  { intros k. rewrite Rabs_mult. rewrite (Rabs_pos_eq (t ^ _)) by (apply pow_le; lra).
    apply Rle_trans with (4 / (2 * PI) ^ (2 * (S K + k)) * (q * (2 * PI)) ^ (2 * (S K + k))).
    - apply Rmult_le_compat; [apply Rabs_pos|apply pow_le; lra|apply bk_bd|apply pow_incr; lra].
    - right. rewrite (Rpow_mult_distr q (2 * PI)), <- (pow_mult q 2). assert ((2 * PI) ^ (2 * (S K + k)) <> 0) by (apply pow_nonzero; lra).
      replace (2 * (S K + k))%nat with (2 * S K + 2 * k)%nat in * by lia. rewrite (pow_add q). field. assumption. }
  assert (GE : ex_series (fun k => 4 * q ^ (2 * S K) * (q ^ 2) ^ k)).
  { apply (ex_series_scal_l (4 * q ^ (2 * S K)) (fun k => (q ^ 2) ^ k)). apply ex_series_geom. rewrite Rabs_pos_eq by (apply pow_le; lra). cbn [pow]. nra. }
  eapply Rle_trans; [apply Series_Rabs|].
  { apply (ex_series_le (fun k => Rabs (bk (S K + k) * t ^ (2 * (S K + k)))) (fun k => 4 * q ^ (2 * S K) * (q ^ 2) ^ k)); [|exact GE].
    intros k. change (Rabs (Rabs (bk (S K + k) * t ^ (2 * (S K + k)))) <= 4 * q ^ (2 * S K) * (q ^ 2) ^ k). rewrite Rabs_Rabsolu. apply B. }
  eapply Rle_trans; [apply Series_le; [intros k; split; [apply Rabs_pos|apply B]|exact GE]|].
  rewrite Series_scal_l, Series_geom by (rewrite Rabs_pos_eq by (apply pow_le; lra); cbn [pow]; nra). right. unfold Rdiv. ring.
Qed.
