(** * The Fourier-series branch of Cl and Sl in exact arithmetic *)
From Coq Require Import Reals ZArith Lra Lia List Bool.
From Coquelicot Require Import Coquelicot.
From Flocq Require Import Core.Raux.
From Interval Require Import Tactic.
From Verif Require Import Num Outcome NumR Eval_R Model_Cl Fourier Clausen.
Local Open Scope R_scope.

(** ** the three-term recurrences *)
Lemma sin_rec k x : sin (INR (S (S k)) * x) = 2 * cos x * sin (INR (S k) * x) - sin (INR k * x).
Proof.
  replace (INR (S (S k)) * x) with (INR (S k) * x + x) by (rewrite (S_INR (S k)); ring).
  replace (INR k * x) with (INR (S k) * x - x) by (rewrite (S_INR k); ring). rewrite sin_plus, sin_minus. ring.
Qed.
Lemma cos_rec k x : cos (INR (S (S k)) * x) = 2 * cos x * cos (INR (S k) * x) - cos (INR k * x).
Proof.
  replace (INR (S (S k)) * x) with (INR (S k) * x + x) by (rewrite (S_INR (S k)); ring).
  replace (INR k * x) with (INR (S k) * x - x) by (rewrite (S_INR k); ring). rewrite cos_plus, cos_minus. ring.
Qed.
Lemma pow_mn k n : (0 <= n)%Z -> opow (Some (IZR (Z.of_nat (S k)))) (Some (IZR (- n))) = Some (/ INR (S k) ^ Z.to_nat n).
Proof.
  intros Hn. unfold opow. rewrite <- INR_IZR_INZ. pose proof (lt_0_INR (S k) ltac:(lia)) as P.
  destruct (Rlt_dec 0 (INR (S k))) as [_|]; [|contradiction]. f_equal.
  rewrite opp_IZR, Rpower_Ropp. f_equal. rewrite <- Rpower_pow by exact P. f_equal. rewrite INR_IZR_INZ, Z2Nat.id by exact Hn. reflexivity.
Qed.

Section Loops.
Variables (ep : R) (n : Z) (x : R).
Hypothesis Hn : (0 <= n)%Z.
Local Notation m := (Z.to_nat n).
Lemma sin_loop cnt : forall k, sin_series_loop (NumR ep) cnt (Z.of_nat (S (S k))) n (Some (cos x)) (Some (sin (INR k * x))) (Some (sin (INR (S k) * x)))
    (Some (psin m k x)) = Some (psin m (k + cnt) x).
Proof.
  induction cnt as [|c IH]; intros k; [rewrite Nat.add_0_r; reflexivity|].
  cbn [sin_series_loop]. cbn [NumR lit mul sub add npow ofZ car lift2]. rewrite pow_mn by exact Hn. cbn [lift2]. rewrite litR_int, <- sin_rec.
  replace (Z.of_nat (S (S k)) + 1)%Z with (Z.of_nat (S (S (S k)))) by lia.
  replace (psin m k x + sin (INR (S (S k)) * x) * / INR (S (S k)) ^ m) with (psin m (S k) x) by reflexivity.
  rewrite IH. do 2 f_equal. lia.
Qed.
Lemma cos_loop cnt : forall k, cos_series_loop (NumR ep) cnt (Z.of_nat (S (S k))) n (Some (cos x)) (Some (cos (INR k * x))) (Some (cos (INR (S k) * x)))
    (Some (pcos m k x)) = Some (pcos m (k + cnt) x).
Proof.
  induction cnt as [|c IH]; intros k; [rewrite Nat.add_0_r; reflexivity|].
  cbn [cos_series_loop]. cbn [NumR lit mul sub add npow ofZ car lift2]. rewrite pow_mn by exact Hn. cbn [lift2]. rewrite litR_int, <- cos_rec.
  replace (Z.of_nat (S (S k)) + 1)%Z with (Z.of_nat (S (S (S k)))) by lia.
  replace (pcos m k x + cos (INR (S (S k)) * x) * / INR (S (S k)) ^ m) with (pcos m (S k) x) by reflexivity.
  rewrite IH. do 2 f_equal. lia.
Qed.
End Loops.

(** ** the cut-off *)
Definition cutoff (ep : R) (n : Z) : Z := Zceil (Rpower ep (- (1) / IZR n)).
Lemma cutoff_val ep n : 0 < ep -> (n <> 0)%Z -> series_kmax (NumR ep) n = i64 (cutoff ep n).
Proof.
  intros He Hn. unfold series_kmax, cutoff. cbn [NumR ceil_to_Z npow eps div lit ofZ car]. rewrite litR_int.
  rewrite odiv_some by (apply not_0_IZR; exact Hn). unfold opow. destruct (Rlt_dec 0 ep); [reflexivity|contradiction].
Qed.
Lemma cutoff_spec ep n : 0 < ep < 1 -> (1 <= n)%Z -> (2 <= cutoff ep n)%Z /\ / ep <= IZR (cutoff ep n) ^ Z.to_nat n.
Proof.
  intros He Hn. assert (N : 1 <= IZR n) by (apply (IZR_le 1); exact Hn). set (y := Rpower ep (- (1) / IZR n)).
  assert (Y : 1 < y).
  { unfold y, Rpower. rewrite <- exp_0 at 1. apply exp_increasing. assert (ln ep < 0) by (rewrite <- ln_1; apply ln_increasing; lra).
    assert (0 < / IZR n) by (apply Rinv_0_lt_compat; lra). assert (0 < / IZR n * - ln ep) by (apply Rmult_lt_0_compat; lra). unfold Rdiv. lra. }
  assert (C : y <= IZR (cutoff ep n)) by apply Zceil_ub. split.
  - assert (1 < cutoff ep n)%Z by (apply lt_IZR; lra). lia.
  - replace (/ ep) with (y ^ Z.to_nat n); [apply pow_incr; lra|].
    rewrite <- Rpower_pow by lra. rewrite INR_IZR_INZ, Z2Nat.id by lia. unfold y. rewrite Rpower_mult.
    replace (- (1) / IZR n * IZR n) with (- (1)) by (field; lra). rewrite Rpower_Ropp, Rpower_1 by lra. reflexivity.
Qed.
Lemma cutoff_mono ep n m : 0 < ep < 1 -> (1 <= n <= m)%Z -> (cutoff ep m <= cutoff ep n)%Z.
Proof.
  intros He H. apply Zceil_le. unfold Rpower. idtac.
  assert (ln ep < 0) by (rewrite <- ln_1; apply ln_increasing; lra).
  assert (/ IZR m <= / IZR n) by (apply Rinv_le_contravar; [apply (IZR_lt 0)|apply IZR_le]; lia).
  assert (E : - (1) / IZR m * ln ep <= - (1) / IZR n * ln ep) by (assert (0 <= (/ IZR n - / IZR m) * - ln ep) by (apply Rmult_le_pos; lra); unfold Rdiv; lra).
  destruct E as [E|E]; [left; apply exp_increasing; exact E|right; rewrite E; reflexivity].
Qed.
Lemma cutoff_10 : cutoff eps_d 10 = 37%Z.
Proof.
  unfold cutoff. apply Zceil_imp. unfold eps_d. replace (/ IZR (2 ^ 52)) with (Rpower 2 (-52)).
  - rewrite Rpower_mult. unfold Rpower. split; interval.
  - replace (-52) with (- (52)) by ring. rewrite Rpower_Ropp. replace 52 with (INR 52) by (simpl; ring). rewrite Rpower_pow by lra. f_equal. rewrite pow_IZR. reflexivity.
Qed.
Lemma cutoff_26 : cutoff eps_d 26 = 4%Z.
Proof.
  unfold cutoff. apply Zceil_imp. unfold eps_d. replace (/ IZR (2 ^ 52)) with (Rpower 2 (-52)).
  - rewrite Rpower_mult. replace (-52 * (- (1) / IZR 26)) with (INR 2) by (simpl; field). rewrite Rpower_pow by lra. simpl. lra.
  - replace (-52) with (- (52)) by ring. rewrite Rpower_Ropp. replace 52 with (INR 52) by (simpl; ring). rewrite Rpower_pow by lra. f_equal. rewrite pow_IZR. reflexivity.
Qed.

Lemma i64_small z : (0 <= z <= 100)%Z -> i64 z = Val z.
Proof. intros H. unfold i64, INT64_MIN, INT64_MAX. destruct (Z.leb_spec (- 2 ^ 63) z); [|lia]. destruct (Z.leb_spec z (2 ^ 63 - 1)); [reflexivity|lia]. Qed.

Lemma eps_d_rng : 0 < eps_d < 1.
Proof. unfold eps_d. split; [apply Rinv_0_lt_compat; apply (IZR_lt 0); reflexivity|]. rewrite <- Rinv_1. apply Rinv_lt_contravar; [rewrite Rmult_1_l; apply (IZR_lt 0); reflexivity|apply (IZR_lt 1); reflexivity]. Qed.
Section Ser.
Variables (n : Z) (x : R).
Hypothesis Hn : (10 <= n)%Z.
Local Notation m := (Z.to_nat n).
Local Notation K := (cutoff eps_d n).
Lemma K_rng : (2 <= K <= 37)%Z.
Proof.
  split; [apply (cutoff_spec eps_d n eps_d_rng); lia|]. rewrite <- cutoff_10. apply cutoff_mono; [apply eps_d_rng|lia].
Qed.
Lemma sin_series_val : sin_series RD n (Some x) = Val (Some (psin m (Z.to_nat K - 1) x)).
Proof.
  unfold sin_series. unfold RD. rewrite cutoff_val by (try apply eps_d_rng; lia). pose proof K_rng as B. rewrite i64_small by lia. cbn [bind].
  f_equal. pose proof (sin_loop eps_d n x ltac:(lia) (Z.to_nat (K - 1)) 0) as L.
  cbn [NumR ncos nsin lit car lift1]. rewrite litR_int. 
  change (Z.of_nat 2) with 2%Z in L. simpl INR in L. rewrite Rmult_0_l, Rmult_1_l, sin_0 in L.
  replace (psin m 0 x) with (sin x) in L by (unfold psin, sum_f_R0, sterm; simpl INR; rewrite pow1, Rmult_1_l; field).
  etransitivity; [exact L|]. do 2 f_equal. lia.
Qed.
Lemma cos_series_val : cos_series RD n (Some x) = Val (Some (pcos m (Z.to_nat K - 1) x)).
Proof.
  unfold cos_series. unfold RD. rewrite cutoff_val by (try apply eps_d_rng; lia). pose proof K_rng as B. rewrite i64_small by lia. cbn [bind].
  f_equal. pose proof (cos_loop eps_d n x ltac:(lia) (Z.to_nat (K - 1)) 0) as L.
  cbn [NumR ncos nsin lit car lift1]. rewrite litR_int. 
  change (Z.of_nat 2) with 2%Z in L. simpl INR in L. rewrite Rmult_0_l, Rmult_1_l, cos_0 in L.
  replace (pcos m 0 x) with (cos x) in L by (unfold pcos, sum_f_R0, cterm; simpl INR; rewrite pow1, Rmult_1_l; field).
  etransitivity; [exact L|]. do 2 f_equal. lia.
Qed.
End Ser.

(** ** the tail of sum 1/k^n *)
Lemma tail_step M p : (1 <= p)%nat -> / INR (S (S M)) ^ S p <= (/ INR (S M) ^ p - / INR (S (S M)) ^ p) / INR p.
Proof.
  intros Hp. set (a := INR (S M)). assert (A : 1 <= a) by (apply (le_INR 1); lia). replace (INR (S (S M))) with (a + 1) by (unfold a; rewrite (S_INR (S M)); ring).
  assert (P : 1 <= INR p) by (apply (le_INR 1); lia).
  pose proof (poly p (/ a) ltac:(apply Rinv_0_lt_compat; lra)) as B.
  assert (A1 : 0 < a ^ p) by (apply pow_lt; lra). assert (A2 : 0 < (a + 1) ^ p) by (apply pow_lt; lra).
  replace ((1 + / a) ^ p) with ((a + 1) ^ p / a ^ p) in B.
  2: { replace (1 + / a) with ((a + 1) * / a) by (field; lra). rewrite Rpow_mult_distr, pow_inv by lra. reflexivity. }
  apply (Rmult_le_reg_l ((a + 1) ^ p * INR p)); [nra|]. cbn [pow].
  replace ((a + 1) ^ p * INR p * / ((a + 1) * (a + 1) ^ p)) with (INR p * / (a + 1)) by (field; lra).
  replace ((a + 1) ^ p * INR p * ((/ a ^ p - / (a + 1) ^ p) / INR p)) with ((a + 1) ^ p / a ^ p - 1) by (field; repeat split; lra).
  assert (/ (a + 1) <= / a) by (apply Rinv_le_contravar; lra). nra.
Qed.
Lemma tail_sum (t : nat -> R) p M : (1 <= p)%nat -> (forall k, Rabs (t k) <= / INR (S k) ^ S p) ->
  forall q, Rabs (sum_f_R0 t (M + q) - sum_f_R0 t M) <= (/ INR (S M) ^ p - / INR (S (M + q)) ^ p) / INR p.
Proof.
  intros Hp H q. assert (P : 0 < INR p) by (apply lt_0_INR; lia). induction q as [|q IH].
  - rewrite Nat.add_0_r, Rminus_eq_0, Rabs_R0, Rminus_eq_0. unfold Rdiv. lra.
  - rewrite Nat.add_succ_r. cbn [sum_f_R0].
    replace (sum_f_R0 t (M + q) + t (S (M + q)) - sum_f_R0 t M) with ((sum_f_R0 t (M + q) - sum_f_R0 t M) + t (S (M + q))) by ring.
    eapply Rle_trans; [apply Rabs_triang|]. pose proof (H (S (M + q))) as B. pose proof (tail_step (M + q) p Hp) as C.
    replace ((/ INR (S M) ^ p - / INR (S (S (M + q))) ^ p) / INR p) with
      ((/ INR (S M) ^ p - / INR (S (M + q)) ^ p) / INR p + (/ INR (S (M + q)) ^ p - / INR (S (S (M + q))) ^ p) / INR p) by (field; repeat split; try lra; apply pow_nonzero, not_0_INR; lia).
    lra.
Qed.
Lemma tail_series (t : nat -> R) p M s : (1 <= p)%nat -> (forall k, Rabs (t k) <= / INR (S k) ^ S p) -> is_series t s ->
  Rabs (sum_f_R0 t M - s) <= / INR (S M) ^ p / INR p.
Proof.
  intros Hp H S. assert (P : 0 < INR p) by (apply lt_0_INR; lia).
  assert (L : is_lim_seq (fun q => Rabs (sum_f_R0 t (M + q) - sum_f_R0 t M)) (Rabs (s - sum_f_R0 t M))).
  { apply (is_lim_seq_abs _ (Finite (s - sum_f_R0 t M))). apply is_lim_seq_minus'; [|apply is_lim_seq_const].
    assert (S' : is_lim_seq (sum_f_R0 t) s) by (apply is_series_Reals in S; apply is_lim_seq_Reals; exact S).
    apply (is_lim_seq_ext (fun q => sum_f_R0 t (q + M))); [intros q; f_equal; lia|]. apply (is_lim_seq_incr_n (sum_f_R0 t) M). exact S'. }
  rewrite Rabs_minus_sym.
  pose proof (is_lim_seq_le _ (fun _ => / INR (Datatypes.S M) ^ p / INR p) _ (/ INR (Datatypes.S M) ^ p / INR p)
    ltac:(intros q; eapply Rle_trans; [apply (tail_sum t p M Hp H q)|]; unfold Rdiv; apply Rmult_le_compat_r; [left; apply Rinv_0_lt_compat; exact P|];
          assert (0 < / INR (Datatypes.S (M + q)) ^ p) by (apply Rinv_0_lt_compat, pow_lt, lt_0_INR; lia); lra) L (is_lim_seq_const _)) as Q. exact Q.
Qed.
Lemma sterm_bd n x k : Rabs (sterm n x k) <= / INR (S k) ^ n.
Proof.
  unfold sterm. assert (P : 0 < INR (S k) ^ n) by (apply pow_lt, lt_0_INR; lia). unfold Rdiv. rewrite Rabs_mult, (Rabs_pos_eq (/ _)) by (left; apply Rinv_0_lt_compat; exact P).
  pose proof (SIN_bound (INR (S k) * x)). assert (Rabs (sin (INR (S k) * x)) <= 1) by (apply Rabs_le; lra). assert (0 < / INR (S k) ^ n) by (apply Rinv_0_lt_compat; exact P). nra.
Qed.
Lemma cterm_bd n x k : Rabs (cterm n x k) <= / INR (S k) ^ n.
Proof.
  unfold cterm. assert (P : 0 < INR (S k) ^ n) by (apply pow_lt, lt_0_INR; lia). unfold Rdiv. rewrite Rabs_mult, (Rabs_pos_eq (/ _)) by (left; apply Rinv_0_lt_compat; exact P).
  pose proof (COS_bound (INR (S k) * x)). assert (Rabs (cos (INR (S k) * x)) <= 1) by (apply Rabs_le; lra). assert (0 < / INR (S k) ^ n) by (apply Rinv_0_lt_compat; exact P). nra.
Qed.
(** the error of cutting at K >= eps^(-1/n) terms *)
Lemma cut_bound (t : nat -> R) (s : R) n (e : R) : (10 <= n)%Z -> ((n <= 25)%Z -> 37 / 9 <= e) -> ((26 <= n)%Z -> 4 / 25 <= e) ->
  (forall k, Rabs (t k) <= / INR (S k) ^ Z.to_nat n) -> is_series t s ->
  Rabs (sum_f_R0 t (Z.to_nat (cutoff eps_d n) - 1) - s) <= e * eps_d.
Proof.
  intros Hn He1 He2 H S. pose proof (K_rng n Hn) as KR. destruct (cutoff_spec eps_d n eps_d_rng ltac:(lia)) as [K2 KE]. set (K := cutoff eps_d n) in *.
  replace (Z.to_nat n) with (Datatypes.S (Z.to_nat (n - 1))) in H by lia.
  eapply Rle_trans; [apply (tail_series t (Z.to_nat (n - 1)) _ s ltac:(lia) H S)|].
  replace (Datatypes.S (Z.to_nat K - 1)) with (Z.to_nat K) by lia. rewrite !INR_IZR_INZ, !Z2Nat.id by lia.
  replace (Z.to_nat n) with (Datatypes.S (Z.to_nat (n - 1))) in KE by lia. cbn [pow] in KE. set (k := IZR K) in *. set (kp := k ^ Z.to_nat (n - 1)) in *.
  assert (K0 : 2 <= k) by (apply (IZR_le 2); lia). assert (KP : 0 < kp) by (apply pow_lt; lra).
  pose proof eps_d_rng as E. assert (X : / kp <= k * eps_d).
  { apply (Rmult_le_reg_l (kp * / eps_d)); [apply Rmult_lt_0_compat; [lra|apply Rinv_0_lt_compat; lra]|].
    replace (kp * / eps_d * / kp) with (/ eps_d) by (field; lra). replace (kp * / eps_d * (k * eps_d)) with (k * kp) by (field; lra). exact KE. }
  assert (N1 : 9 <= IZR (n - 1)) by (apply (IZR_le 9); lia).
  assert (Y : k / IZR (n - 1) <= e).
  { destruct (Z_le_gt_dec n 25) as [L|L].
    - eapply Rle_trans; [|apply He1; exact L]. apply Rmult_le_compat; [lra|left; apply Rinv_0_lt_compat; lra|apply (IZR_le K 37); lia|apply Rinv_le_contravar; lra].
    - eapply Rle_trans; [|apply He2; lia]. assert (25 <= IZR (n - 1)) by (apply (IZR_le 25); lia).
      apply Rmult_le_compat; [lra|left; apply Rinv_0_lt_compat; lra| |apply Rinv_le_contravar; lra].
      apply (IZR_le K 4). rewrite <- cutoff_26. apply cutoff_mono; [exact E|lia]. }
  eapply Rle_trans; [apply Rmult_le_compat_r; [left; apply Rinv_0_lt_compat; lra|exact X]|].
  replace (k * eps_d * / IZR (n - 1)) with (k / IZR (n - 1) * eps_d) by (unfold Rdiv; ring). apply Rmult_le_compat_r; lra.
Qed.
