(** * Bernoulli numbers, Euler's formula for zeta(2m), and the closed form of
      sum cos(kx)/k^n (n even), sum sin(kx)/k^n (n odd) on [0, 2 pi].
      Nothing here mentions the code. *)
From Coq Require Import Reals Lra Lia Psatz ZArith List Bool Arith.
From Coquelicot Require Import Coquelicot.
From Verif Require Import Polylog Polylog_series Fourier Clausen Red Clausen_vals Chain.
Local Open Scope R_scope.

(** the Bernoulli numbers (B_1 = -1/2), by the usual recurrence *)
Definition is_bernoulli (b : nat -> R) : Prop :=
  b 0%nat = 1 /\ forall m, (1 <= m)%nat -> sum_f_R0 (fun k => Binomial.C (S m) k * b k) m = 0.

Lemma bernoulli_unique b c : is_bernoulli b -> is_bernoulli c -> forall n, b n = c n.
Proof.
  intros [B0 B] [C0 C]. intros n. induction n as [n IH] using (well_founded_induction lt_wf).
  destruct n as [|n]; [congruence|]. specialize (B (S n) ltac:(lia)). specialize (C (S n) ltac:(lia)). rewrite tech5 in B, C.
  assert (E : sum_f_R0 (fun k => Binomial.C (S (S n)) k * b k) n = sum_f_R0 (fun k => Binomial.C (S (S n)) k * c k) n).
  { apply sum_eq. intros i Hi. rewrite IH by lia. reflexivity. }
  rewrite E in B. assert (N : Binomial.C (S (S n)) (S n) <> 0).
  { unfold Binomial.C. apply Rmult_integral_contrapositive. split; [apply INR_fact_neq_0|]. apply Rinv_neq_0_compat, Rmult_integral_contrapositive. split; apply INR_fact_neq_0. }
  apply (Rmult_eq_reg_l (Binomial.C (S (S n)) (S n))); [lra|exact N].
Qed.

Definition dsg (n : nat) : R := (-1) ^ Nat.div2 n.
Definition Dsl (n : nat) (x : R) : R := match n with O => - / 2 | S O => (PI - x) / 2 | _ => dsg n * Slspec n x end.
Definition asl (j : nat) : R := Dsl j 0.
Lemma Dsl_derive n x : (1 <= n)%nat -> 0 < x < 2 * PI -> is_derive (Dsl (S n)) x (Dsl n x).
Proof.
  intros Hn Hx. destruct n as [|[|n]]; [lia| |].
  - apply (is_derive_ext (fun x => -1 * cosser 2 x)); [intros t; toR; unfold Dsl, dsg, Slspec; cbn [Nat.div2 Nat.even pow]; ring|].
    evar_last; [apply (is_derive_scal (cosser 2) x (-1)); apply cosser_2_derive; exact Hx|]. toR. unfold Dsl. field.
  - change (Dsl (S (S (S n)))) with (fun x => dsg (S (S (S n))) * Slspec (S (S (S n))) x). change (Dsl (S (S n)) x) with (dsg (S (S n)) * Slspec (S (S n)) x).
    unfold Slspec. change (Nat.even (S (S n))) with (Nat.even n). replace (Nat.even (S (S (S n)))) with (negb (Nat.even n)) by (change (Nat.even (S (S (S n)))) with (Nat.even (S n)); rewrite Nat.even_succ, <- Nat.negb_even; reflexivity).
    unfold dsg. assert (DV : Nat.div2 (S (S (S n))) = (if Nat.even n then Nat.div2 (S (S n)) else S (Nat.div2 (S (S n))))).
    { change (Nat.div2 (S (S (S n)))) with (S (Nat.div2 (S n))). change (Nat.div2 (S (S n))) with (S (Nat.div2 n)). destruct (Nat.even n) eqn:E.
      - f_equal. apply Nat.even_spec in E. destruct E as [k ->]. rewrite Nat.div2_double. apply Nat.div2_succ_double.
      - f_equal. assert (O : Nat.odd n = true) by (rewrite <- Nat.negb_even, E; reflexivity). apply Nat.odd_spec in O. destruct O as [k ->].
        replace (S (2 * k + 1)) with (2 * S k)%nat by lia. rewrite Nat.div2_double, Nat.add_1_r, Nat.div2_succ_double. reflexivity. }
    rewrite DV. destruct (Nat.even n); cbn [negb].
    + evar_last; [apply (is_derive_scal (sinser (S (S (S n)))) x); apply sinser_derive; lia|]. reflexivity.
    + evar_last; [apply (is_derive_scal (cosser (S (S (S n)))) x); apply cosser_derive; lia|]. toR. cbn [pow]. ring.
Qed.
Lemma Dsl_continuous n x : continuous (Dsl n) x.
Proof.
  destruct n as [|[|n]].
  - apply continuous_const.
  - apply (ex_derive_continuous (fun x => (PI - x) / 2)). auto_derive. trivial.
  - change (Dsl (S (S n))) with (fun x => dsg (S (S n)) * Slspec (S (S n)) x). apply (continuous_scal_r (dsg (S (S n))) (Slspec (S (S n)))).
    unfold Slspec. destruct (Nat.even (S (S n))); [apply cosser_continuous|apply sinser_continuous]; lia.
Qed.
Theorem Dsl_tp n x : (1 <= n)%nat -> 0 <= x <= 2 * PI -> Dsl n x = tp asl n x.
Proof.
  intros Hn. revert x. induction n as [|n IH]; [lia|]. intros x Hx. destruct n as [|n].
  - cbn [tp]. unfold asl, Dsl. change (fact 1) with 1%nat. change (INR 1) with 1. field.
  - set (g := fun x => Dsl (S (S n)) x - tp asl (S (S n)) x). assert (E : g 0 = g x).
    { apply const_on_closed; [lra| |].
      - intros y Hy. apply (continuous_minus (Dsl (S (S n))) (tp asl (S (S n)))); [apply Dsl_continuous|apply tp_continuous].
      - intros y Hy. replace 0 with (Dsl (S n) y - tp asl (S n) y) by (rewrite (IH ltac:(lia) y ltac:(lra)); ring).
        apply (is_derive_minus (Dsl (S (S n))) (tp asl (S (S n)))); [apply Dsl_derive; [lia|lra]|apply tp_derive]. }
    unfold g in E. rewrite tp_0 in E. unfold asl at 1 in E. lra.
Qed.
Lemma tp_sum m : forall a x, tp a m x = sum_f_R0 (fun i => a (m - i)%nat * x ^ i / INR (fact i)) m.
Proof.
  induction m as [|m IH]; intros a x; [cbn [tp sum_f_R0 pow fact Nat.sub]; change (INR 1) with 1; field|].
  cbn [tp]. rewrite tech5, IH, Nat.sub_diag. f_equal. apply sum_eq. intros i Hi. replace (S m - i)%nat with (S (m - i)) by lia. reflexivity.
Qed.
Lemma Slspec_2pi n : Slspec n (2 * PI) = Slspec n 0.
Proof. pose proof (Slspec_per n 0 1) as P. replace (0 + 2 * PI * 1) with (2 * PI) in P by ring. exact P. Qed.
Lemma asl_rec n : (2 <= n)%nat -> tp asl n (2 * PI) = asl n.
Proof.
  intros H. pose proof PI_RGT_0. rewrite <- Dsl_tp by (lia || lra). unfold asl. destruct n as [|[|n]]; [lia|lia|]. unfold Dsl. rewrite Slspec_2pi. reflexivity.
Qed.
Definition bern (n : nat) : R := -2 * INR (fact n) * asl n / (2 * PI) ^ n.
Lemma sum_rev (f : nat -> R) m : sum_f_R0 f m = sum_f_R0 (fun k => f (m - k)%nat) m.
Proof.
  revert f. induction m as [|m IH]; intros f; [reflexivity|].
  rewrite (decomp_sum (fun k => f (S m - k)%nat)) by lia. cbn [Nat.pred]. rewrite tech5, (IH f), Nat.sub_0_r, Rplus_comm. f_equal.
Qed.
Theorem bern_is_bernoulli : is_bernoulli bern.
Proof.
  pose proof PI_RGT_0 as HP. split.
  - unfold bern, asl, Dsl. cbn [fact pow]. change (INR 1) with 1. field.
  - intros m Hm. pose proof (asl_rec (S m) ltac:(lia)) as A. rewrite tp_sum, sum_rev, tech5 in A. replace (S m - (S m - S m))%nat with (S m) in A by lia. rewrite Nat.sub_diag in A.
    cbn [pow fact] in A. change (INR 1) with 1 in A. replace (asl (S m) * 1 / 1) with (asl (S m)) in A by field.
    assert (Z : sum_f_R0 (fun k => asl (S m - (S m - k))%nat * (2 * PI) ^ (S m - k) / INR (fact (S m - k))) m = 0) by lra.
    assert (PW : (2 * PI) ^ (S m) <> 0) by (apply pow_nonzero; lra).
    replace (sum_f_R0 (fun k => Binomial.C (S m) k * bern k) m) with (-2 * INR (fact (S m)) / (2 * PI) ^ (S m) * sum_f_R0 (fun k => asl (S m - (S m - k))%nat * (2 * PI) ^ (S m - k) / INR (fact (S m - k))) m); [rewrite Z; ring|].
    rewrite scal_sum. apply sum_eq. intros k Hk. replace (S m - (S m - k))%nat with k by lia. unfold bern, Binomial.C.
    assert (E : (2 * PI) ^ S m = (2 * PI) ^ k * (2 * PI) ^ (S m - k)) by (rewrite <- pow_add; f_equal; lia). rewrite E.
    assert ((2 * PI) ^ k <> 0) by (apply pow_nonzero; lra). assert ((2 * PI) ^ (S m - k) <> 0) by (apply pow_nonzero; lra).
    pose proof (INR_fact_neq_0 k). pose proof (INR_fact_neq_0 (S m - k)). field. repeat split; assumption.
Qed.
Lemma asl_even m : (1 <= m)%nat -> asl (2 * m) = (-1) ^ m * ReLi (2 * m) 1.
Proof.
  intros H. unfold asl. destruct m as [|m]; [lia|]. replace (2 * S m)%nat with (S (S (2 * m))) by lia. unfold Dsl, dsg, Slspec.
  replace (S (S (2 * m))) with (2 * S m)%nat by lia. rewrite Nat.div2_double. replace (Nat.even (2 * S m)) with true by (symmetry; apply Nat.even_spec; exists (S m); reflexivity).
  rewrite cosser_0 by lia. reflexivity.
Qed.
Lemma asl_odd m : (1 <= m)%nat -> asl (2 * m + 1) = 0.
Proof.
  intros H. unfold asl. replace (2 * m + 1)%nat with (S (S (2 * (m - 1) + 1))) by lia. unfold Dsl, Slspec.
  replace (Nat.even (S (S (2 * (m - 1) + 1)))) with false. { rewrite sinser_0. ring. }
  symmetry. replace (S (S (2 * (m - 1) + 1))) with (S (2 * m)) by lia. rewrite Nat.even_succ, <- Nat.negb_even. replace (Nat.even (2 * m)) with true by (symmetry; apply Nat.even_spec; exists m; reflexivity). reflexivity.
Qed.
(** Euler *)
Theorem euler b m : is_bernoulli b -> (1 <= m)%nat -> ReLi (2 * m) 1 = (-1) ^ (S m) * b (2 * m)%nat * (2 * PI) ^ (2 * m) / (2 * INR (fact (2 * m))).
Proof.
  intros B H. rewrite (bernoulli_unique b bern B bern_is_bernoulli). unfold bern. rewrite asl_even by exact H. pose proof PI_RGT_0.
  assert ((2 * PI) ^ (2 * m) <> 0) by (apply pow_nonzero; lra). pose proof (INR_fact_neq_0 (2 * m)).
  assert (E : (-1) ^ m * (-1) ^ m = 1) by (rewrite <- Rpow_mult_distr; replace (-1 * -1) with 1 by ring; apply pow1).
  cbn [pow]. replace (-1 * (-1) ^ m * (-2 * INR (fact (2 * m)) * ((-1) ^ m * ReLi (2 * m) 1) / (2 * PI) ^ (2 * m)) * (2 * PI) ^ (2 * m) / (2 * INR (fact (2 * m))))
    with (((-1) ^ m * (-1) ^ m) * ReLi (2 * m) 1) by (field; split; assumption). rewrite E. ring.
Qed.
Theorem bernoulli_odd b m : is_bernoulli b -> (1 <= m)%nat -> b (2 * m + 1)%nat = 0.
Proof. intros B H. rewrite (bernoulli_unique b bern B bern_is_bernoulli). unfold bern. rewrite asl_odd by exact H. unfold Rdiv. ring. Qed.
(** closed form of the Glaisher-Clausen functions *)
Theorem Slspec_closed n x : (2 <= n)%nat -> 0 <= x <= 2 * PI -> Slspec n x = dsg n * tp asl n x.
Proof.
  intros H Hx. rewrite <- Dsl_tp by (lia || lra). destruct n as [|[|n]]; [lia|lia|]. unfold Dsl.
  assert (E : dsg (S (S n)) * dsg (S (S n)) = 1) by (unfold dsg; rewrite <- Rpow_mult_distr; replace (-1 * -1) with 1 by ring; apply pow1).
  rewrite <- Rmult_assoc, E. ring.
Qed.
