(** * The inversion remainder: Li_rest in exact arithmetic, and the inversion formula *)
From Coq Require Import ZArith Reals List Bool Lra Lia Psatz.
From Coquelicot Require Import Coquelicot.
From Flocq Require Import Core.Raux.
From Interval Require Import Tactic.
From Verif Require Import Num NumR Outcome Spec Eval_R Consts Model_Tables Model_Zeta Model_LiC Model_Li Proof_Int Proof_LiInt Cplx Proof_Horner Clog_series Polylog Polylog_series Polylog_eqs Zeta_num Properties_F Properties_H.
Import ListNotations.
Local Open Scope R_scope.

(** ** the specification.  -eta(j) = sum (-1)^k/k^j = Li_j(-1) *)
Definition gam (c : nat -> R) (j : nat) : R := if Nat.eqb j 0 then -1 else if Nat.even j then 2 * c j else 0.
(** 2 sum_{m < n, n-m even} c(n-m) f(m) L^m - f(n) L^n *)
Definition restC (c f : nat -> R) (n : nat) (L : C) : C := Csum (fun m => Cmult (RtoC (gam c (n - m) * f m)) (Cpow L m)) (S n).
Definition neg_eta_true (j : nat) : R := ReLi j (-1).
Definition inv_fact (m : nat) : R := / INR (fact m).

(** ** the code *)
Lemma Csum_split (g : nat -> C) r : forall K, (r <= 1)%nat ->
  Csum (fun m => if Nat.even (r + m) then g m else RtoC 0) (r + 2 * K) = Csum (fun i => g (r + 2 * i)%nat) K.
Proof.
  induction K as [|K IH]; intros Hr.
  - destruct r as [|[|r]]; [reflexivity| |lia]. cbn. ring.
  - replace (r + 2 * S K)%nat with (S (S (r + 2 * K))) by lia. cbn [Csum]. rewrite IH by exact Hr.
    replace (Nat.even (r + (r + 2 * K))) with true by (replace (r + (r + 2 * K))%nat with (2 * (r + K))%nat by lia; symmetry; rewrite Nat.even_mul; reflexivity).
    replace (Nat.even (r + S (r + 2 * K))) with false.
    2:{ replace (r + S (r + 2 * K))%nat with (S (2 * (r + K)))%nat by lia. rewrite Nat.even_succ, Nat.odd_mul. reflexivity. }
    ring.
Qed.
Lemma Cpow_add z a b : Cpow z (a + b) = Cmult (Cpow z a) (Cpow z b).
Proof. induction a as [|a IH]; cbn [Cpow Nat.add]; [ring|rewrite IH; ring]. Qed.

Lemma Csum_ext_lt f g n : (forall i, (i < n)%nat -> f i = g i) -> Csum f n = Csum g n.
Proof. induction n as [|n IH]; intros H; [reflexivity|]. cbn [Csum]. rewrite IH by (intros; apply H; lia). rewrite H by lia. reflexivity. Qed.
Lemma Zeven_nat n : (0 <= n)%Z -> Z.even n = Nat.even (Z.to_nat n).
Proof.
  intros H. apply eq_true_iff_eq. rewrite Z.even_spec, Nat.even_spec. split; intros [k E]; [exists (Z.to_nat k)|exists (Z.of_nat k)]; lia.
Qed.

Section R.
Variable e : R.
Notation N := (NumR e).
Variables (c f : nat -> R) (n : nat) (L : C).
Hypothesis Hf : forall m, (m <= n)%nat -> inv_fac N (Z.of_nat m) = Val (Some (f m)).
Hypothesis Hc : forall j, (1 <= j <= n)%nat -> neg_eta N (Z.of_nat j) = Val (Some (c j)).
Hypothesis Hz : forall a b, (a <= b)%nat -> f a = 0 -> f b = 0.
Notation r := (n mod 2)%nat.
Notation K := (n / 2)%nat.
Let tm (i : nat) : C := Cmult (RtoC (c (n - (r + 2 * i)) * f (r + 2 * i))) (Cpow L (r + 2 * i)).
(** the loop leaves early if a partial sum is exactly 0 (old_sum is never assigned) *)
Hypothesis Hnz : forall i, (i < K)%nat -> f (r + 2 * i)%nat <> 0 -> Csum tm (S i) <> RtoC 0.
Lemma n_split : (n = r + 2 * K)%nat. Proof. pose proof (Nat.div_mod n 2). lia. Qed.
Lemma r_le : (r <= 1)%nat. Proof. pose proof (Nat.mod_upper_bound n 2). lia. Qed.
Lemma sum_zero_tail i j : f (r + 2 * i)%nat = 0 -> Csum tm (i + j) = Csum tm i.
Proof.
  intros H. induction j as [|j IH]; [rewrite Nat.add_0_r; reflexivity|]. rewrite Nat.add_succ_r. cbn [Csum]. rewrite IH. unfold tm at 2.
  rewrite (Hz (r + 2 * i) (r + 2 * (i + j))) by (try lia; exact H). rewrite Rmult_0_r. ring.
Qed.
Lemma rest_loop_ok : forall cnt i, (i + cnt = K)%nat ->
  Li_rest_loop N cnt (Z.of_nat cnt) (Z.of_nat n) (ofC e (Cmult L L)) (ofC e (Csum tm i)) (ofC e (Cpow L (r + 2 * i))) =
  Val (inr (ofC e (Csum tm K), ofC e (Cpow L n))) \/
  (Li_rest_loop N cnt (Z.of_nat cnt) (Z.of_nat n) (ofC e (Cmult L L)) (ofC e (Csum tm i)) (ofC e (Cpow L (r + 2 * i))) = Val (inl (ofC e (Csum tm K))) /\ f n = 0).
Proof.
  pose proof n_split as NS. pose proof r_le as RL.
  induction cnt as [|cnt IH]; intros i Hi.
  - left. cbn [Li_rest_loop]. rewrite Nat.add_0_r in Hi. subst i. do 3 f_equal. f_equal. f_equal. lia.
  - cbn [Li_rest_loop]. replace (Z.of_nat n - 2 * Z.of_nat (S cnt))%Z with (Z.of_nat (r + 2 * i)) by lia.
    rewrite Hf by lia. cbn [bind]. rewrite lit_int. cbn [eqb NumR ocmp].
    destruct (Req_EM_T (f (r + 2 * i)%nat) 0) as [Z0|Z0].
    + rewrite Reqb_true by exact Z0. right. split; [|apply (Hz (r + 2 * i)); [lia|exact Z0]].
      rewrite <- (sum_zero_tail i (S cnt) Z0). rewrite Hi. reflexivity.
    + rewrite Reqb_false by exact Z0. replace (2 * Z.of_nat (S cnt))%Z with (Z.of_nat (n - (r + 2 * i))) by lia.
      rewrite Hc by lia. cbn [bind]. cbv zeta. cbn [mul NumR lift2]. rewrite ofC_mul_rc, ofC_mul, ofC_add.
      change (Cplus (Csum tm i) _) with (Csum tm (S i)).
      match goal with |- context[ceqb N ?a ?b] => destruct (ceqb N a b) eqn:E end.
      { exfalso. assert (CZ : czero N = ofC e (RtoC 0)) by (unfold czero, ofC; rewrite lit_int; reflexivity). rewrite CZ in E.
        apply (Hnz i); [lia|exact Z0|]. apply (ofC_eqb e). exact E. }
      replace (Z.of_nat (S cnt) - 1)%Z with (Z.of_nat cnt) by lia.
      replace (Cmult (Cpow L (r + 2 * i)) (Cmult L L)) with (Cpow L (r + 2 * S i)).
      2:{ replace (r + 2 * S i)%nat with ((r + 2 * i) + 2)%nat by lia. rewrite Cpow_add. cbn [Cpow]. ring. }
      apply IH. lia.
Qed.
Lemma restC_split : restC c f n L = Cminus (Cmult (RtoC 2) (Csum tm K)) (Cmult (RtoC (f n)) (Cpow L n)).
Proof.
  pose proof n_split as NS. pose proof r_le as RL. unfold restC. cbn [Csum]. rewrite Nat.sub_diag. unfold gam at 2. cbn [Nat.eqb].
  rewrite (Csum_ext_lt _ (fun m => if Nat.even (r + m) then Cmult (RtoC (2 * c (n - m) * f m)) (Cpow L m) else RtoC 0)).
  - match goal with |- context[Csum ?F n] => replace (Csum F n) with (Csum F (r + 2 * K)) by (f_equal; lia) end. rewrite (Csum_split (fun m => Cmult (RtoC (2 * c (n - m) * f m)) (Cpow L m))) by exact RL. rewrite Csum_mul. unfold tm.
    rewrite (Csum_ext (fun i => Cmult (RtoC 2) _) (fun i => Cmult (RtoC (2 * c (n - (r + 2 * i)) * f (r + 2 * i)%nat)) (Cpow L (r + 2 * i)))).
    + replace (RtoC (-1 * f n)) with (Copp (RtoC (f n))) by (rewrite <- RtoC_opp; f_equal; ring). ring.
    + intros i. rewrite !RtoC_mult. ring.
  - intros m Hm. unfold gam. destruct (Nat.eqb_spec (n - m) 0); [lia|].
    replace (Nat.even (n - m)) with (Nat.even (r + m)); [destruct (Nat.even (r + m)); [reflexivity|rewrite Rmult_0_l; ring]|].
    apply eq_true_iff_eq. rewrite !Nat.even_spec. split; intros [k E]; [exists (r + K - k)%nat|exists (r + K - k)%nat]; lia.
Qed.
Lemma Li_rest_ok z : Li_clog N (copp N (ofC e z)) = ofC e L -> Li_rest N (Z.of_nat n) (ofC e z) = Val (ofC e (restC c f n L)).
Proof.
  intros HL. pose proof n_split as NS. pose proof r_le as RL. unfold Li_rest. cbv zeta. rewrite HL, ofC_mul.
  assert (EV : is_even (Z.of_nat n) = Nat.even n) by (rewrite even_Zeven, Zeven_nat, Nat2Z.id by lia; reflexivity).
  assert (KM : (if is_even (Z.of_nat n) then Z.quot (Z.of_nat n) 2 else Z.quot (Z.of_nat n - 1) 2) = Z.of_nat K).
  { rewrite EV. destruct (Nat.even n) eqn:E.
    - apply Nat.even_spec in E. destruct E as [k E]. rewrite Z.quot_div_nonneg by lia.  rewrite E at 1. replace (Z.of_nat (2 * k)) with (Z.of_nat k * 2)%Z by lia. rewrite Z.div_mul by lia. lia.
    - assert (O : Nat.odd n = true) by (unfold Nat.odd; rewrite E; reflexivity). apply Nat.odd_spec in O. destruct O as [k O]. rewrite Z.quot_div_nonneg by lia.
      rewrite O at 1. replace (Z.of_nat (2 * k + 1) - 1)%Z with (Z.of_nat k * 2)%Z by lia. rewrite Z.div_mul by lia. lia. }
  rewrite KM, Nat2Z.id.
  assert (P0 : (if is_even (Z.of_nat n) then (lit N 1 0, lit N 0 0) else ofC e L) = ofC e (Cpow L (r + 2 * 0))).
  { rewrite EV, !lit_int. destruct (Nat.even n) eqn:E.
    - replace (r + 2 * 0)%nat with 0%nat; [reflexivity|]. apply Nat.even_spec in E. destruct E as [k E]. lia.
    - replace (r + 2 * 0)%nat with 1%nat; [cbn [Cpow]; f_equal; ring|]. assert (O : Nat.odd n = true) by (unfold Nat.odd; rewrite E; reflexivity). apply Nat.odd_spec in O. destruct O as [k O]. lia. }
  rewrite P0. assert (CZ : czero N = ofC e (Csum tm 0)) by (unfold czero, ofC; rewrite lit_int; reflexivity). rewrite CZ.
  rewrite restC_split. destruct (rest_loop_ok K 0 ltac:(lia)) as [-> | [-> F]]; cbn [bind].
  - rewrite Hf by lia. cbn [bind]. rewrite lit_int, ofC_mul_rc, ofC_mul_cr, ofC_sub. do 2 f_equal. ring.
  - rewrite lit_int, ofC_mul_rc, F. do 2 f_equal. ring.
Qed.
End R.

(** ** the values the code uses *)
Lemma code_fac e : exists f : nat -> R, (forall m, inv_fac (NumR e) (Z.of_nat m) = Val (Some (f m))) /\
  (forall m, (m <= 177)%nat -> Rabs (f m - inv_fact m) <= 6 / 10 ^ 17 * inv_fact m) /\ (forall m, (178 <= m)%nat -> f m = 0).
Proof.
  exists (fun m => if (m <=? 177)%nat then let d := nth m INVERSE_FACTORIALS (0, 0)%Z in litR (fst d) (snd d) else 0).
  split; [|split].
  - intros m. destruct (Nat.leb_spec m 177) as [H|H].
    + destruct (inv_fac_table (NumR e) (Z.of_nat m) ltac:(lia)) as (d & A & E). rewrite Nat2Z.id in A. apply nth_error_nth' with (d := (0, 0)%Z) in A.
      rewrite E, A. reflexivity.
    + rewrite inv_fac_large by lia. rewrite lit_int. reflexivity.
  - intros m H. destruct (Nat.leb_spec m 177); [|lia]. pose proof ifck_all as C. rewrite forallb_forall in C. specialize (C m ltac:(apply in_seq; lia)).
    apply ifck_ok in C. unfold inv_fact. cbv zeta. replace (6 / 10 ^ 17) with (60 / 10 ^ 18) by (field). exact C.
  - intros m H. destruct (Nat.leb_spec m 177); [lia|reflexivity].
Qed.
Lemma code_eta e : exists c : nat -> R, (forall j, (1 <= j)%nat -> neg_eta (NumR e) (Z.of_nat j) = Val (Some (c j))) /\
  (forall j, (1 <= j)%nat -> Rabs (c j - neg_eta_true j) <= 6 / 10 ^ 17).
Proof.
  exists (fun j => if (j <=? 54)%nat then let d := nth (j - 1) NEG_ETA (0, 0)%Z in litR (fst d) (snd d) else -1). split.
  - intros j Hj. destruct (Nat.leb_spec j 54) as [H|H].
    + destruct (neg_eta_pos_table (NumR e) (Z.of_nat j) ltac:(lia)) as (d & A & E). apply nth_error_nth' with (d := (0, 0)%Z) in A.
      replace (Z.to_nat (Z.of_nat j - 1)) with (j - 1)%nat in A by lia. rewrite E, A. reflexivity.
    + rewrite neg_eta_pos_large by lia. rewrite lit_int. reflexivity.
  - intros j Hj. unfold neg_eta_true. destruct (Nat.leb_spec j 54) as [H|H].
    + pose proof (eta_ok j ltac:(lia)) as P. cbv zeta in P. lra.
    + pose proof (eta_closed j ltac:(lia)) as P. lra.
Qed.

(** ** the inversion formula on the negative axis, every order *)
Definition restR (c f : nat -> R) (n : nat) (y : R) : R := sum_f_R0 (fun m => gam c (n - m) * f m * y ^ m) n.
Lemma restC_real c f n y : restC c f n (RtoC y) = RtoC (restR c f n y).
Proof.
  assert (P : forall m, Cpow (RtoC y) m = RtoC (y ^ m)) by (induction m as [|m IH]; cbn [Cpow pow]; [reflexivity|rewrite IH, RtoC_mult; reflexivity]).
  assert (G : forall (g : nat -> R) k, Csum (fun m => Cmult (RtoC (g m)) (Cpow (RtoC y) m)) (S k) = RtoC (sum_f_R0 (fun m => g m * y ^ m) k)).
  { intros g. induction k as [|k IH].
    - cbn [Csum sum_f_R0]. rewrite P, RtoC_mult. ring.
    - cbn [sum_f_R0]. rewrite RtoC_plus, <- IH. cbn [Csum]. rewrite !P, !RtoC_mult. ring. }
  exact (G (fun m => gam c (n - m) * f m) n).
Qed.
Lemma restR_derive c n y : is_derive (restR c inv_fact (S n)) y (restR c inv_fact n y).
Proof.
  unfold restR.
  assert (G : forall k (a : nat -> R), is_derive (fun y => sum_f_R0 (fun m => a m * inv_fact m * y ^ m) (S k)) y (sum_f_R0 (fun m => a (S m) * inv_fact m * y ^ m) k)).
  { induction k as [|k IH]; intros a.
    - cbn [sum_f_R0]. unfold inv_fact. cbn [fact INR Nat.mul Nat.add pow]. auto_derive; [trivial|]. field.
    - apply (is_derive_plus (fun y => sum_f_R0 (fun m => a m * inv_fact m * y ^ m) (S k)) (fun y => a (S (S k)) * inv_fact (S (S k)) * y ^ S (S k)) y); [apply IH|].
      replace (a (S (S k)) * inv_fact (S k) * y ^ S k) with (a (S (S k)) * inv_fact (S (S k)) * (INR (S (S k)) * 1 * y ^ S k)).
      + apply is_derive_mul_c. replace (INR (S (S k)) * 1 * y ^ S k) with (INR (S (S k)) * 1 * y ^ pred (S (S k))) by reflexivity.
        apply (is_derive_pow (fun t : R => t) (S (S k)) y 1). apply is_derive_idR.
      + unfold inv_fact. rewrite (fact_simpl (S k)), mult_INR. field. split; [apply INR_fact_neq_0|apply not_0_INR; lia]. }
  apply (G n (fun m => gam c (S n - m))).
Qed.
Lemma restR_0 c n : restR c inv_fact n 0 = gam c n.
Proof.
  unfold restR. destruct n as [|n]; [cbn; unfold inv_fact; cbn; rewrite Rinv_1; ring|].
  rewrite decomp_sum by lia. cbn [pow]. rewrite Nat.sub_0_r. unfold inv_fact at 1. cbn [fact INR]. rewrite Rinv_1.
  rewrite (sum_eq _ (fun _ => 0)) by (intros; ring). rewrite sum_cte. ring.
Qed.
Theorem inversion n x : (1 <= n)%nat -> x < 0 -> ReLi n x + (-1) ^ n * ReLi n (/ x) = restR neg_eta_true inv_fact n (ln (- x)).
Proof.
  intros Hn. revert x. induction n as [|n IH]; [lia|]. intros x Hx. replace (ln (- x)) with (ln (Rabs x)) by (rewrite Rabs_left by lra; reflexivity).
  destruct n as [|n].
  - pose proof (ReLi_1_inv x ltac:(lra) ltac:(lra)) as E. replace (ReLi 1 x + (-1) ^ 1 * ReLi 1 (/ x)) with (ReLi 1 x - 1 * ReLi 1 (/ x)) by ring. rewrite E.
    unfold restR, gam, inv_fact. cbn. field.
  - apply (inversion_step (S n) ((-1) ^ S (S n)) (restR neg_eta_true inv_fact (S n)) (restR neg_eta_true inv_fact (S (S n))) (-1) ltac:(lia) (or_intror eq_refl)); [| | |lra].
    + intros y Hy N. rewrite Rabs_left by lra. rewrite <- IH by (try lia; lra). cbn [pow]. ring.
    + intros y. apply restR_derive.
    + rewrite restR_0. unfold gam. cbn [Nat.eqb]. replace (/ -1) with (-1) by field. unfold neg_eta_true.
      assert (PM : forall k, (-1) ^ k = if Nat.even k then 1 else -1).
      { induction k as [|k IHk]; [reflexivity|]. cbn [pow]. rewrite IHk, Nat.even_succ, <- Nat.negb_even. destruct (Nat.even k); cbn; ring. }
      rewrite PM. destruct (Nat.even (S (S n))); ring.
Qed.

(** ** error against the exact formula *)
Lemma exp_partial x n : 0 <= x -> sum_f_R0 (fun m => x ^ m * inv_fact m) n <= exp x.
Proof.
  intros Hx. pose proof (is_exp_Reals x) as E. rewrite <- sum_n_Reals. apply (is_lim_seq_incr_compare (fun k => sum_n (fun m => x ^ m * inv_fact m) k) (exp x)).
  - exact E.
  - intros k. rewrite sum_Sn. change plus with Rplus. assert (0 <= x ^ S k * inv_fact (S k)); [|lra].
    apply Rmult_le_pos; [apply pow_le; exact Hx|]. left. apply Rinv_0_lt_compat, INR_fact_lt_0.
Qed.
Lemma Csum_mod f n : Cmod (Csum f (S n)) <= sum_f_R0 (fun m => Cmod (f m)) n.
Proof.
  induction n as [|n IH]; [cbn [Csum sum_f_R0]; rewrite Cplus_0_l; lra|].
  change (Csum f (S (S n))) with (Cplus (Csum f (S n)) (f (S n))). cbn [sum_f_R0]. eapply Rle_trans; [apply Cmod_triangle|]. lra.
Qed.
Lemma Csum_minus f g n : Cminus (Csum f n) (Csum g n) = Csum (fun m => Cminus (f m) (g m)) n.
Proof. induction n as [|n IH]; cbn [Csum]; [ring|rewrite <- IH; ring]. Qed.
Lemma neg_eta_true_bound j : (1 <= j)%nat -> -1.0000001 <= neg_eta_true j <= -0.68.
Proof.
  intros H. unfold neg_eta_true. destruct (Nat.le_gt_cases j 54) as [G|G].
  - pose proof eta_range_check as C. rewrite forallb_forall in C. specialize (C j ltac:(apply in_seq; lia)). apply andb_prop in C. destruct C as [C1 C2].
    apply Z.leb_le, IZR_le in C1. apply Z.leb_le, IZR_le in C2. rewrite mult_IZR, opp_IZR in C1. rewrite opp_IZR in C2.
    replace (IZR (10 ^ 28)) with (10 ^ 28) in C1 by exact (pow_IZR 10 28). replace (IZR (10 ^ 30)) with (10 ^ 30) in C2 by exact (pow_IZR 10 30).
    pose proof (eta_n_ok j ltac:(lia)) as P. unfold SC in P. replace (IZR (10 ^ 30)) with (10 ^ 30) in P by exact (pow_IZR 10 30). apply Rabs_le_between in P. lra.
  - pose proof (eta_closed j ltac:(lia)) as P. apply Rabs_le_between in P. lra.
Qed.
Section Err.
Variables c f : nat -> R.
Hypothesis Hc : forall j, (1 <= j)%nat -> Rabs (c j - neg_eta_true j) <= 6 / 10 ^ 17.
Hypothesis Hf : forall m, (m <= 177)%nat -> Rabs (f m - inv_fact m) <= 6 / 10 ^ 17 * inv_fact m.
Hypothesis Hf0 : forall m, (178 <= m)%nat -> f m = 0.
Lemma inv_fact_pos m : 0 < inv_fact m. Proof. apply Rinv_0_lt_compat, INR_fact_lt_0. Qed.
Lemma coef_err n m : Rabs (gam c (n - m) * f m - gam neg_eta_true (n - m) * inv_fact m) <= (if (m <=? 177)%nat then 3 / 10 ^ 16 else 2.1) * inv_fact m.
Proof.
  pose proof (inv_fact_pos m) as P. set (j := (n - m)%nat). unfold gam.
  assert (G : forall a b d, Rabs (a - b) <= d -> Rabs b <= 2.00001 -> d <= 1.2001 / 10 ^ 16 -> Rabs (a * f m - b * inv_fact m) <= (if (m <=? 177)%nat then 3 / 10 ^ 16 else 2.1) * inv_fact m).
  { intros a b d A B D. destruct (Nat.leb_spec m 177) as [K|K].
    - specialize (Hf m K). replace (a * f m - b * inv_fact m) with ((a - b) * f m + b * (f m - inv_fact m)) by ring. eapply Rle_trans; [apply Rabs_triang|]. rewrite !Rabs_mult.
      assert (Rabs (f m) <= (1 + 6 / 10 ^ 17) * inv_fact m) by (apply Rabs_le_between in Hf; apply Rabs_le; lra).
      pose proof (Rabs_pos (a - b)). pose proof (Rabs_pos b). pose proof (Rabs_pos (f m)). pose proof (Rabs_pos (f m - inv_fact m)).
      apply Rle_trans with (1.2001 / 10 ^ 16 * ((1 + 6 / 10 ^ 17) * inv_fact m) + 2.00001 * (6 / 10 ^ 17 * inv_fact m)); [|nra].
      apply Rplus_le_compat; apply Rmult_le_compat; lra.
    - rewrite Hf0 by lia. replace (a * 0 - b * inv_fact m) with (- (b * inv_fact m)) by ring. rewrite Rabs_Ropp, Rabs_mult, (Rabs_pos_eq (inv_fact m)) by lra.
      apply Rmult_le_compat_r; lra. }
  destruct (Nat.eqb_spec j 0) as [J|J]; [apply (G _ _ 0); [rewrite Rminus_eq_0, Rabs_R0; lra|rewrite Rabs_left; lra|lra]|].
  destruct (Nat.even j).
  - pose proof (neg_eta_true_bound j ltac:(lia)) as B. apply (G _ _ (1.2 / 10 ^ 16)); [|apply Rabs_le; lra|lra].
    specialize (Hc j ltac:(lia)). apply Rabs_le_between in Hc. apply Rabs_le. lra.
  - apply (G _ _ 0); [rewrite Rminus_eq_0, Rabs_R0; lra|rewrite Rabs_R0; lra|lra].
Qed.
Theorem rest_err n L : Cmod (Cminus (restC c f n L) (restC neg_eta_true inv_fact n L)) <= 3 / 10 ^ 16 * exp (Cmod L) + 2.1 * / 3.5 ^ 178 * exp (3.5 * Cmod L).
Proof.
  unfold restC. rewrite Csum_minus. eapply Rle_trans; [apply Csum_mod|]. set (p := Cmod L). assert (P0 : 0 <= p) by apply Cmod_ge_0.
  apply Rle_trans with (sum_f_R0 (fun m => 3 / 10 ^ 16 * (p ^ m * inv_fact m) + 2.1 * / 3.5 ^ 178 * ((3.5 * p) ^ m * inv_fact m)) n).
  - apply sum_Rle. intros m Hm.
    replace (Cminus (Cmult (RtoC (gam c (n - m) * f m)) (Cpow L m)) (Cmult (RtoC (gam neg_eta_true (n - m) * inv_fact m)) (Cpow L m)))
      with (Cmult (RtoC (gam c (n - m) * f m - gam neg_eta_true (n - m) * inv_fact m)) (Cpow L m)) by (rewrite RtoC_minus; ring).
    rewrite Cmod_mult, Cmod_R, Cpow_mod. fold p. pose proof (coef_err n m) as E. pose proof (pow_le p m P0) as Q. pose proof (inv_fact_pos m) as F.
    eapply Rle_trans; [apply Rmult_le_compat_r; [exact Q|exact E]|]. assert (Q3 : 0 < 3.5 ^ 178) by (apply pow_lt; lra).
    destruct (Nat.leb_spec m 177) as [K|K].
    + assert (0 <= 2.1 * / 3.5 ^ 178 * ((3.5 * p) ^ m * inv_fact m)).
      { apply Rmult_le_pos; [apply Rmult_le_pos; [lra|left; apply Rinv_0_lt_compat; exact Q3]|]. apply Rmult_le_pos; [apply pow_le; lra|lra]. }
      lra.
    + assert (H : 3.5 ^ 178 <= 3.5 ^ m) by (apply Rle_pow; [lra|lia]). rewrite Rpow_mult_distr.
      assert (H1 : 1 <= / 3.5 ^ 178 * 3.5 ^ m) by (apply (Rmult_le_reg_l (3.5 ^ 178)); [exact Q3|]; rewrite <- Rmult_assoc, Rinv_r by lra; lra).
      assert (0 <= 3 / 10 ^ 16 * (p ^ m * inv_fact m)) by (apply Rmult_le_pos; [lra|apply Rmult_le_pos; lra]).
      assert (0 <= p ^ m * inv_fact m) by (apply Rmult_le_pos; lra).
      replace (2.1 * / 3.5 ^ 178 * (3.5 ^ m * p ^ m * inv_fact m)) with (2.1 * (/ 3.5 ^ 178 * 3.5 ^ m) * (p ^ m * inv_fact m)) by ring.
      replace (2.1 * inv_fact m * p ^ m) with (2.1 * 1 * (p ^ m * inv_fact m)) by ring.
      apply Rle_trans with (2.1 * (/ 3.5 ^ 178 * 3.5 ^ m) * (p ^ m * inv_fact m)); [|lra]. apply Rmult_le_compat_r; [assumption|lra].
  - rewrite sum_plus.
    assert (S1 : sum_f_R0 (fun m => 3 / 10 ^ 16 * (p ^ m * inv_fact m)) n = 3 / 10 ^ 16 * sum_f_R0 (fun m => p ^ m * inv_fact m) n) by (rewrite scal_sum; apply sum_eq; intros; ring).
    assert (S2 : sum_f_R0 (fun m => 2.1 * / 3.5 ^ 178 * ((3.5 * p) ^ m * inv_fact m)) n = 2.1 * / 3.5 ^ 178 * sum_f_R0 (fun m => (3.5 * p) ^ m * inv_fact m) n) by (rewrite scal_sum; apply sum_eq; intros; ring).
    rewrite S1, S2. apply Rplus_le_compat; apply Rmult_le_compat_l.
    + lra.
    + apply exp_partial. exact P0.
    + apply Rmult_le_pos; [lra|]. left. apply Rinv_0_lt_compat, pow_lt. lra.
    + apply exp_partial. lra.
Qed.
End Err.
