(** * C33: the inversion remainder *)
From Coq Require Import ZArith Reals List Bool Lra Lia Psatz.
From Coquelicot Require Import Coquelicot.
From Flocq Require Import Core.Raux.
From Interval Require Import Tactic.
From Verif Require Import Num NumR Outcome Spec Eval_R Consts Model_Tables Model_Zeta Model_LiC Model_Li Proof_Int Proof_LiInt Cplx Proof_Horner Clog_series Polylog Polylog_series Polylog_eqs Zeta_num Properties_F Properties_H Properties_I Rest.
Import ListNotations.
Local Open Scope R_scope.

(** Specification (Rest.v): [restC c f n L] is  2 sum_{m < n, n-m even} c(n-m) f(m) L^m - f(n) L^n ;
    the true remainder has c(j) = sum_k (-1)^k/k^j = Li_j(-1) = [neg_eta_true j] and f(m) = 1/m! = [inv_fact m]. *)

(** the true remainder is what the inversion formula needs: negative axis, every order *)
Theorem C33_inversion_formula n x : (1 <= n)%nat -> x < 0 ->
  RtoC (ReLi n x + (-1) ^ n * ReLi n (/ x)) = restC neg_eta_true inv_fact n (RtoC (ln (- x))).
Proof. intros Hn Hx. rewrite inversion by assumption. symmetry. apply restC_real. Qed.

Section Code.
Variable e : R.
Notation N := (NumR e).
(** the two tables as the code reads them *)
Definition code_tables (c f : nat -> R) : Prop :=
  (forall m, inv_fac N (Z.of_nat m) = Val (Some (f m))) /\ (forall j, (1 <= j)%nat -> neg_eta N (Z.of_nat j) = Val (Some (c j))).
Lemma tables_ex : exists c f, code_tables c f /\
  (forall j, (1 <= j)%nat -> Rabs (c j - neg_eta_true j) <= 6 / 10 ^ 17) /\
  (forall m, (m <= 177)%nat -> Rabs (f m - inv_fact m) <= 6 / 10 ^ 17 * inv_fact m) /\ (forall m, (178 <= m)%nat -> f m = 0).
Proof. destruct (code_fac e) as (f & A & B & D). destruct (code_eta e) as (c & A' & B'). exists c, f. unfold code_tables. auto. Qed.
Lemma tables_unique c f c' f' : code_tables c f -> code_tables c' f' -> (forall m, f m = f' m) /\ (forall j, (1 <= j)%nat -> c j = c' j).
Proof.
  intros [A B] [A' B']. split; intros k; [|intros Hk].
  - specialize (A k). rewrite A' in A. congruence.
  - specialize (B k Hk). rewrite B' in B by exact Hk. congruence.
Qed.
Lemma f_zero_up c f : code_tables c f -> forall a b, (a <= b)%nat -> f a = 0 -> f b = 0.
Proof.
  intros T a b Hab H. destruct tables_ex as (c' & f' & T' & _ & F & F0). destruct (tables_unique _ _ _ _ T T') as [E _]. rewrite E in *.
  destruct (Nat.le_gt_cases a 177) as [K|K]; [|apply F0; lia].
  specialize (F a K). rewrite H in F. pose proof (inv_fact_pos a). apply Rabs_le_between in F. lra.
Qed.
(** Li_rest evaluates the formula, at the logarithm and with the constants of the code, unless one of the
    partial sums is exactly zero (the loop compares the sum with the never updated old_sum = 0) *)
Theorem C33_formula (n : nat) (z : C) : z <> RtoC 0 ->
  exists c f w v, code_tables c f /\ is_Clog (Copp z) w /\ fst v = fst w /\ Rabs (snd v - snd w) <= 2.5e-16 /\ (snd z <> 0 \/ fst z < 0 -> v = w) /\
    (forall j, (1 <= j)%nat -> Rabs (c j - neg_eta_true j) <= 6 / 10 ^ 17) /\
    (forall m, (m <= 177)%nat -> Rabs (f m - inv_fact m) <= 6 / 10 ^ 17 * inv_fact m) /\ (forall m, (178 <= m)%nat -> f m = 0) /\
    ((forall i, (i < n / 2)%nat -> f (n mod 2 + 2 * i)%nat <> 0 ->
        Csum (fun i => Cmult (RtoC (c (n - (n mod 2 + 2 * i)) * f (n mod 2 + 2 * i)))%nat (Cpow v (n mod 2 + 2 * i))) (S i) <> RtoC 0) ->
     Li_rest N (Z.of_nat n) (ofC e z) = Val (ofC e (restC c f n v)) /\
     Cmod (Cminus (restC c f n v) (restC neg_eta_true inv_fact n v)) <= 3 / 10 ^ 16 * exp (Cmod v) + 2.1 * / 3.5 ^ 178 * exp (3.5 * Cmod v)).
Proof.
  intros Z0. destruct tables_ex as (c & f & T & C & F & F0).
  assert (Z1 : Copp z <> RtoC 0) by (intros E; apply Z0; replace z with (Copp (Copp z)) by ring; rewrite E; ring).
  destruct (C24_Li_clog e (Copp z) Z1) as (w & v & L & W & V1 & V2 & V3). exists c, f, w, v.
  split; [exact T|]. split; [exact W|]. split; [exact V1|]. split; [exact V2|]. split; [intros H; apply V3; cbn; lra|].
  split; [exact C|]. split; [exact F|]. split; [exact F0|]. intros NZ. split.
  - apply Li_rest_ok; [intros; apply T|intros; apply T; lia|exact (f_zero_up _ _ T)|exact NZ|]. rewrite ofC_opp. exact L.
  - apply rest_err; assumption.
Qed.
(** the error against the formula with exact constants is negligible for every order as long as |log(-z)| <= 60 (|z| < 1e25) *)
Lemma rest_err_60 p : 0 <= p <= 60 -> 2.1 * / 3.5 ^ 178 * exp (3.5 * p) <= 1 / 10 ^ 5.
Proof.
  intros H. apply Rle_trans with (2.1 * / 3.5 ^ 178 * exp 210); [apply Rmult_le_compat_l|interval with (i_prec 60)].
  - apply Rmult_le_pos; [lra|]. left. apply Rinv_0_lt_compat, pow_lt. lra.
  - destruct (Req_dec p 60) as [->|]; [right; f_equal; lra|]. left. apply exp_increasing. lra.
Qed.
End Code.

(** ** the negative axis *)
Lemma gam_t_neg j : -2.00001 <= gam neg_eta_true j <= 0.
Proof. unfold gam. destruct (Nat.eqb_spec j 0); [lra|]. destruct (Nat.even j); [|lra]. pose proof (neg_eta_true_bound j ltac:(lia)). lra. Qed.
Section Neg.
Variable e : R.
Notation N := (NumR e).
Variables c f : nat -> R.
Hypothesis T : code_tables e c f.
Hypothesis Hc : forall j, (1 <= j)%nat -> Rabs (c j - neg_eta_true j) <= 6 / 10 ^ 17.
Hypothesis Hf : forall m, (m <= 177)%nat -> Rabs (f m - inv_fact m) <= 6 / 10 ^ 17 * inv_fact m.
Hypothesis Hf0 : forall m, (178 <= m)%nat -> f m = 0.
Lemma c_neg j : (1 <= j)%nat -> -1.000001 <= c j <= -0.6.
Proof. intros H. pose proof (neg_eta_true_bound j H). specialize (Hc j H). apply Rabs_le_between in Hc. lra. Qed.
Lemma f_pos m : 0 <= f m.
Proof. destruct (Nat.le_gt_cases m 177) as [K|K]; [|rewrite Hf0 by lia; lra]. specialize (Hf m K). pose proof (inv_fact_pos m). apply Rabs_le_between in Hf. lra. Qed.
Lemma gam_c_neg j : -2.00001 <= gam c j <= 0.
Proof. unfold gam. destruct (Nat.eqb_spec j 0); [lra|]. destruct (Nat.even j); [|lra]. pose proof (c_neg j ltac:(lia)). lra. Qed.
Lemma Cpow_real y k : Cpow (RtoC y) k = RtoC (y ^ k).
Proof. induction k as [|k IH]; cbn [Cpow pow]; [reflexivity|rewrite IH, RtoC_mult; reflexivity]. Qed.
Lemma rest_neg (n : nat) x : x < -1 -> Li_rest N (Z.of_nat n) (ofC e (RtoC x)) = Val (ofC e (RtoC (restR c f n (ln (- x))))).
Proof.
  intros Hx. set (y := ln (- x)). assert (Y : 0 < y) by (unfold y; rewrite <- ln_1; apply ln_increasing; lra). rewrite <- restC_real.
  apply Li_rest_ok; [intros; apply T|intros; apply T; lia|exact (f_zero_up e _ _ T)| |].
  - intros i Hi Fi. set (r := (n mod 2)%nat) in *. assert (NS : (n = r + 2 * (n / 2))%nat) by (unfold r; pose proof (Nat.div_mod n 2); lia).
    assert (G : forall k, (S k <= n / 2)%nat -> (k <= i)%nat -> exists s, s < 0 /\ Csum (fun i => Cmult (RtoC (c (n - (r + 2 * i)) * f (r + 2 * i)))%nat (Cpow (RtoC y) (r + 2 * i))) (S k) = RtoC s).
    { assert (TM : forall k, (S k <= n / 2)%nat -> (k <= i)%nat -> c (n - (r + 2 * k)) * f (r + 2 * k)%nat * y ^ (r + 2 * k) < 0).
      { intros k Hk Ki. pose proof (c_neg (n - (r + 2 * k)) ltac:(lia)). assert (0 < f (r + 2 * k)%nat).
        { destruct (Rle_lt_or_eq_dec _ _ (f_pos (r + 2 * k))) as [Q|Q]; [exact Q|]. elim Fi. apply (f_zero_up e _ _ T (r + 2 * k)); [lia|auto]. }
        assert (0 < y ^ (r + 2 * k)) by (apply pow_lt; exact Y).
        assert (0 < f (r + 2 * k)%nat * y ^ (r + 2 * k)) by (apply Rmult_lt_0_compat; assumption). nra. }
      induction k as [|k IH]; intros Hk Ki.
      - eexists. split; [exact (TM 0%nat Hk Ki)|]. cbn [Csum]. rewrite Cpow_real, <- RtoC_mult, Cplus_0_l. reflexivity.
      - destruct IH as (s & Hs & E); [lia|lia|]. exists (s + c (n - (r + 2 * S k)) * f (r + 2 * S k)%nat * y ^ (r + 2 * S k)). specialize (TM (S k) Hk Ki).
        split; [lra|]. change (Csum ?F (S (S k))) with (Cplus (Csum F (S k)) (F (S k))). rewrite E. cbv beta. rewrite Cpow_real, <- RtoC_mult, <- RtoC_plus. reflexivity. }
    destruct (G i ltac:(lia) (le_n _)) as (s & Hs & E). rewrite E. intros Q. apply (f_equal fst) in Q. cbn in Q. lra.
  - rewrite ofC_opp. replace (Copp (RtoC x)) with (RtoC (- x)) by apply RtoC_opp. destruct (C24_Li_clog e (RtoC (- x))) as (w & v & L & W & V1 & V2 & V3).
    { intros Q. apply (f_equal fst) in Q. cbn in Q. lra. }
    rewrite V3 in L by (right; cbn; lra). rewrite L. f_equal. rewrite (Clog_unique _ _ W). unfold y. apply Clog_pos. lra.
Qed.
(** n <= 177: all terms have one sign, so the error is relative *)
Lemma rest_rel n y : (n <= 177)%nat -> 0 <= y -> Rabs (restR c f n y - restR neg_eta_true inv_fact n y) <= 3 / 10 ^ 16 * - restR neg_eta_true inv_fact n y.
Proof.
  intros Hn Hy. unfold restR. rewrite <- minus_sum. eapply Rle_trans; [apply Rsum_abs|].
  replace (3 / 10 ^ 16 * - sum_f_R0 (fun m => gam neg_eta_true (n - m) * inv_fact m * y ^ m) n) with (- (3 / 10 ^ 16) * sum_f_R0 (fun m => gam neg_eta_true (n - m) * inv_fact m * y ^ m) n) by ring.
  rewrite scal_sum. apply sum_Rle. intros m Hm. rewrite <- Rmult_minus_distr_r, Rabs_mult. rewrite (Rabs_pos_eq (y ^ m)) by (apply pow_le; exact Hy).
  pose proof (pow_le y m Hy) as Q. replace (gam neg_eta_true (n - m) * inv_fact m * y ^ m * - (3 / 10 ^ 16)) with (3 / 10 ^ 16 * (- gam neg_eta_true (n - m)) * inv_fact m * y ^ m) by ring.
  apply Rmult_le_compat_r; [exact Q|]. specialize (Hf m ltac:(lia)). pose proof (inv_fact_pos m) as P. set (j := (n - m)%nat).
  replace (gam c j * f m - gam neg_eta_true j * inv_fact m) with ((gam c j - gam neg_eta_true j) * f m + gam neg_eta_true j * (f m - inv_fact m)) by ring.
  eapply Rle_trans; [apply Rabs_triang|]. rewrite !Rabs_mult.
  assert (F : Rabs (f m) <= (1 + 6 / 10 ^ 17) * inv_fact m) by (apply Rabs_le_between in Hf; apply Rabs_le; lra).
  assert (G : Rabs (gam c j - gam neg_eta_true j) <= 1.8 / 10 ^ 16 * - gam neg_eta_true j /\ 0 <= - gam neg_eta_true j).
  { unfold gam. destruct (Nat.eqb_spec j 0); [rewrite Rminus_eq_0, Rabs_R0; lra|]. destruct (Nat.even j); [|rewrite Rminus_eq_0, Rabs_R0; lra].
    pose proof (neg_eta_true_bound j ltac:(lia)). specialize (Hc j ltac:(lia)). split; [|lra]. apply Rabs_le_between in Hc. apply Rabs_le. lra. }
  destruct G as [G1 G2]. set (g := - gam neg_eta_true j) in *. replace (Rabs (gam neg_eta_true j)) with g by (unfold g; rewrite Rabs_left1; unfold g in G2; lra).
  apply Rle_trans with (1.8 / 10 ^ 16 * g * ((1 + 6 / 10 ^ 17) * inv_fact m) + g * (6 / 10 ^ 17 * inv_fact m)); [|nra].
  apply Rplus_le_compat; [apply Rmult_le_compat; try apply Rabs_pos; assumption|apply Rmult_le_compat_l; assumption].
Qed.
(** the sizes for the refutation *)
Lemma rest_code_small n y : (200 <= n)%nat -> 177 <= y -> Rabs (restR c f n y) <= 178 * (2.001 * (y ^ 177 * inv_fact 177)).
Proof.
  intros Hn Hy. unfold restR. eapply Rle_trans; [apply Rsum_abs|]. rewrite (tech2 _ 177 n) by lia.
  assert (Z : sum_f_R0 (fun i => Rabs (gam c (n - (178 + i)) * f (178 + i)%nat * y ^ (178 + i))) (n - 178) = 0).
  { rewrite (sum_eq _ (fun _ => 0)); [rewrite sum_cte; ring|]. intros i _. rewrite Hf0 by lia. rewrite Rmult_0_r, Rmult_0_l. apply Rabs_R0. }
  rewrite Z, Rplus_0_r. apply Rle_trans with (sum_f_R0 (fun _ => 2.001 * (y ^ 177 * inv_fact 177)) 177).
  - apply sum_Rle. intros m Hm. rewrite !Rabs_mult. pose proof (gam_c_neg (n - m)) as G. rewrite (Rabs_left1 (gam c (n - m))) by lra. rewrite (Rabs_pos_eq (y ^ m)) by (apply pow_le; lra).
    assert (F : Rabs (f m) <= 1.000001 * inv_fact m) by (specialize (Hf m ltac:(lia)); pose proof (inv_fact_pos m); apply Rabs_le_between in Hf; apply Rabs_le; lra).
    assert (MO : forall d k, (k + d = 177)%nat -> inv_fact k * y ^ k <= inv_fact 177 * y ^ 177).
    { induction d as [|d IH]; intros k Hk; [replace k with 177%nat by lia; lra|]. eapply Rle_trans; [|apply (IH (S k)); lia].
      pose proof (inv_fact_pos (S k)) as P. assert (E : inv_fact k = INR (S k) * inv_fact (S k)).
      { unfold inv_fact. rewrite fact_simpl, mult_INR. field. split; [apply INR_fact_neq_0|apply not_0_INR; lia]. }
      rewrite E. cbn [pow]. assert (INR (S k) <= y) by (apply Rle_trans with (INR 177); [apply le_INR; lia|rewrite INR_IZR_INZ; cbn; lra]).
      assert (0 <= y ^ k) by (apply pow_le; lra). replace (inv_fact (S k) * (y * y ^ k)) with (y * (inv_fact (S k) * y ^ k)) by ring.
      rewrite Rmult_assoc. apply Rmult_le_compat_r; [apply Rmult_le_pos; lra|assumption]. }
    specialize (MO (177 - m)%nat m ltac:(lia)).
    pose proof (inv_fact_pos m) as P. assert (Q : 0 <= y ^ m) by (apply pow_le; lra).
    apply Rle_trans with (2.00001 * (1.000001 * inv_fact m) * y ^ m).
    + apply Rmult_le_compat_r; [exact Q|]. apply Rmult_le_compat; [lra|apply Rabs_pos|lra|exact F].
    + replace (2.00001 * (1.000001 * inv_fact m) * y ^ m) with (2.00001 * 1.000001 * (inv_fact m * y ^ m)) by ring.
      assert (0 <= inv_fact m * y ^ m) by (apply Rmult_le_pos; lra). nra.
  - rewrite sum_cte. replace (INR 178) with 178 by (rewrite INR_IZR_INZ; reflexivity). lra.
Qed.
End Neg.
Lemma rest_true_big n y : (n = 200)%nat -> 0 <= y -> 1.36 * (y ^ 198 * inv_fact 198) <= - restR neg_eta_true inv_fact n y.
Proof.
  intros Hn Hy. unfold restR. 
  assert (P : forall m, 0 <= - (gam neg_eta_true (n - m) * inv_fact m * y ^ m)).
  { intros m. pose proof (gam_t_neg (n - m)). pose proof (inv_fact_pos m). assert (0 <= y ^ m) by (apply pow_le; lra). assert (0 <= inv_fact m * y ^ m) by (apply Rmult_le_pos; lra). nra. }
  assert (S : forall (g : nat -> R) k m, (forall m, 0 <= - g m) -> (m <= k)%nat -> - g m <= - sum_f_R0 g k).
  { intros g k m Hg. revert m. assert (N : forall k, 0 <= - sum_f_R0 g k) by (induction k0 as [|k0 IH]; cbn [sum_f_R0]; [apply Hg|specialize (Hg (Datatypes.S k0)); lra]).
    induction k as [|k IH]; intros m Hm; cbn [sum_f_R0]; [replace m with 0%nat by lia; lra|].
    destruct (Nat.eq_dec m (Datatypes.S k)) as [->|]; [specialize (N k); lra|]. specialize (IH m ltac:(lia)). specialize (Hg (Datatypes.S k)). lra. }
  eapply Rle_trans; [|exact (S _ n 198%nat P ltac:(lia))]. cbv beta. replace (n - 198)%nat with 2%nat by lia. clear S P Hn.
  pose proof (neg_eta_true_bound 2 ltac:(lia)) as B. unfold gam. cbn [Nat.eqb Nat.even].
  assert (0 <= y ^ 198 * inv_fact 198) as Q by (apply Rmult_le_pos; [apply pow_le; lra|left; apply inv_fact_pos]).
  replace (- (2 * neg_eta_true 2 * inv_fact 198 * y ^ 198)) with (- 2 * neg_eta_true 2 * (y ^ 198 * inv_fact 198)) by ring.
  apply Rmult_le_compat_r; [exact Q|lra].
Qed.

Lemma inv_fact_ratio a B : forall d, INR (a + d) <= B -> inv_fact a * / B ^ d <= inv_fact (a + d).
Proof.
  intros d Hd. unfold inv_fact. 
  assert (D : forall d, INR (a + d) <= B -> INR (fact (a + d)) <= INR (fact a) * B ^ d).
  { clear d Hd. induction d as [|d IH]; intros Hd; [rewrite Nat.add_0_r; cbn [pow]; lra|]. rewrite Nat.add_succ_r, fact_simpl, mult_INR in *. cbn [pow].
    rewrite S_INR in Hd. specialize (IH ltac:(lra)). pose proof (INR_fact_lt_0 (a + d)). pose proof (pos_INR (S (a + d))). rewrite <- S_INR in Hd.
    replace (INR (fact a) * (B * B ^ d)) with (B * (INR (fact a) * B ^ d)) by ring. apply Rmult_le_compat; lra. }
  specialize (D d Hd). rewrite <- Rinv_mult. apply Rinv_le_contravar; [apply INR_fact_lt_0|exact D].
Qed.
Lemma cut_numbers A B p : 0 < A -> 0 < p -> A * / 198 ^ 21 <= B -> 178 * (2.001 * (p * A)) * 10 ^ 8 <= 1.36 * (690 ^ 21 * p * B).
Proof.
  intros HA Hp I. apply Rle_trans with (1.36 * (690 ^ 21 * p * (A * / 198 ^ 21))).
  + replace (178 * (2.001 * (p * A)) * 10 ^ 8) with (178 * 2.001 * 10 ^ 8 * (p * A)) by ring.
    replace (1.36 * (690 ^ 21 * p * (A * / 198 ^ 21))) with (1.36 * (690 ^ 21 * / 198 ^ 21) * (p * A)) by ring.
    apply Rmult_le_compat_r; [apply Rmult_le_pos; lra|]. interval.
  + apply Rmult_le_compat_l; [lra|]. apply Rmult_le_compat_l; [|exact I]. apply Rmult_le_pos; [apply pow_le; lra|lra].
Qed.
(** ** the theorems on the negative axis *)
Theorem C33_negative_axis e (n : nat) x : (1 <= n <= 177)%nat -> x < -1 ->
  exists v, Li_rest (NumR e) (Z.of_nat n) (ofC e (RtoC x)) = Val (ofC e (RtoC v)) /\
    Rabs (v - (ReLi n x + (-1) ^ n * ReLi n (/ x))) <= 3 / 10 ^ 16 * Rabs (ReLi n x + (-1) ^ n * ReLi n (/ x)).
Proof.
  intros Hn Hx. destruct (tables_ex e) as (c & f & T & C & F & F0). exists (restR c f n (ln (- x))). split; [apply rest_neg; assumption|].
  rewrite inversion by (lia || lra). assert (Y : 0 <= ln (- x)) by (left; rewrite <- ln_1; apply ln_increasing; lra).
  eapply Rle_trans; [apply rest_rel; try assumption; lia|]. apply Rmult_le_compat_l; [lra|]. rewrite <- Rabs_Ropp. apply RRle_abs.
Qed.
(** "cutting the loop loses nothing" is false above n = 177: at z = -exp 690 (about -1e299) and n = 200
    the code's remainder is less than a hundred-millionth of the true one *)
Theorem C33_cut_refuted e : exists v, Li_rest (NumR e) 200 (ofC e (RtoC (- exp 690))) = Val (ofC e (RtoC v)) /\
  Rabs v * 10 ^ 8 <= Rabs (ReLi 200 (- exp 690) + (-1) ^ 200 * ReLi 200 (/ - exp 690)).
Proof.
  assert (B : - exp 690 < -1) by (assert (1 < exp 690) by (rewrite <- exp_0; apply exp_increasing; lra); lra).
  destruct (tables_ex e) as (c & f & T & C & F & F0). exists (restR c f 200 690).
  split.
  - change 200%Z with (Z.of_nat 200). rewrite (rest_neg e c f) by assumption. rewrite Ropp_involutive, ln_exp. reflexivity.
  - rewrite inversion by (lia || lra). rewrite Ropp_involutive, ln_exp.
    pose proof (rest_code_small c f C F F0 200 690 (le_n _) ltac:(lra)) as SS. pose proof (rest_true_big 200 690 eq_refl ltac:(lra)) as G.
    rewrite <- (Rabs_Ropp (restR neg_eta_true _ _ _)). eapply Rle_trans; [|apply RRle_abs]. eapply Rle_trans; [|exact G].
    apply Rle_trans with (178 * (2.001 * (690 ^ 177 * inv_fact 177)) * 10 ^ 8); [apply Rmult_le_compat_r; [lra|exact SS]|].
    pose proof (inv_fact_ratio 177 198 21 ltac:(rewrite INR_IZR_INZ; apply IZR_le; vm_compute; discriminate)) as I. change (177 + 21)%nat with 198%nat in I.
    pose proof (inv_fact_pos 177) as P. assert (Q : 0 < 690 ^ 177) by (apply pow_lt; lra).
    replace (690 ^ 198) with (690 ^ 21 * 690 ^ 177) by (rewrite <- pow_add; reflexivity).
    apply cut_numbers; assumption.
Qed.
