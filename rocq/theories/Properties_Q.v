(** * Properties, part Q: the Glaisher-Clausen functions Sl(n,x) (C20)

    [RD] is the exact-arithmetic instance of the model (see Properties_B.v): decimal
    literals have their exact value and +,-,*,/ are exact. *)
From Coq Require Import Reals Lra Lia ZArith List.
From Flocq Require Import Core.Raux.
From Coquelicot Require Import Coquelicot.
From Verif Require Import Num Outcome NumR Polylog Fourier Clausen Chain Consts Proof_Cl Cl_full Red Series Proof_Series Bern Sl_closed Properties_C Model_Cl.
Open Scope R_scope.

(** s = sum_{k>=1} cos(kx)/k^n for even n, sum_{k>=1} sin(kx)/k^n for odd n *)
Definition gc_sum (n : Z) (x s : R) : Prop :=
  if Z.even n then cos_sum (Z.to_nat n) x s else sin_sum (Z.to_nat n) x s.

Lemma even_to_nat n : (0 <= n)%Z -> Nat.even (Z.to_nat n) = Z.even n.
Proof.
  intros H. destruct (Z.even n) eqn:E.
  - apply Z.even_spec in E. destruct E as [k E]. apply Nat.even_spec. exists (Z.to_nat k). lia.
  - rewrite <- Z.negb_odd in E. apply Bool.negb_false_iff, Z.odd_spec in E. destruct E as [k E]. replace (Z.to_nat n) with (S (2 * Z.to_nat k)) by lia.
    rewrite Nat.even_succ, <- Nat.negb_even. replace (Nat.even (2 * Z.to_nat k)) with true; [reflexivity|]. symmetry. apply Nat.even_spec. exists (Z.to_nat k). reflexivity.
Qed.
Lemma sinser1_series x : is_series (sterm 1 x) (sinser 1 x).
Proof.
  pose proof PI_RGT_0 as HP. set (k := Zfloor (x / (2 * PI))). set (y := x - 2 * PI * IZR k).
  assert (Y : 0 <= y < 2 * PI).
  { pose proof (Zfloor_lb (x / (2 * PI))) as A. pose proof (Zfloor_ub (x / (2 * PI))) as B. fold k in A, B. unfold y.
    apply (Rmult_le_compat_l (2 * PI)) in A; [|lra]. apply (Rmult_lt_compat_l (2 * PI)) in B; [|lra]. replace (2 * PI * (x / (2 * PI))) with x in A, B by (field; lra). lra. }
  assert (E : forall j, sterm 1 x j = sterm 1 y j).
  { intros j. unfold sterm. replace x with (y + 2 * PI * IZR k) by (unfold y; ring). rewrite sin_kper. reflexivity. }
  assert (X : ex_series (sterm 1 x)).
  { destruct (Req_dec y 0) as [Z|Z].
    - exists 0. apply (is_series_ext (fun _ => 0)).
      + intros j. rewrite E, Z. unfold sterm. rewrite Rmult_0_r, sin_0. unfold Rdiv. symmetry. apply Rmult_0_l.
      + apply (filterlim_ext (fun _ => 0)); [|apply filterlim_const]. intros j. symmetry. rewrite sum_n_const. apply Rmult_0_r.
    - eexists. apply (is_series_ext (sterm 1 y)); [intros j; symmetry; apply E|]. apply sinser_1. lra. }
  unfold sinser. apply Series_correct. exact X.
Qed.
Lemma gc_sum_spec n x : (1 <= n)%Z -> gc_sum n x (Slspec (Z.to_nat n) x).
Proof.
  intros H. unfold gc_sum, Slspec. rewrite even_to_nat by lia. destruct (Z.even n) eqn:E.
  - apply (cosser_series (Z.to_nat n) x). assert (n <> 1%Z) by (intros ->; discriminate). lia.
  - destruct (Z.eq_dec n 1) as [-> |D]; [exact (sinser1_series x)|]. apply (sinser_series (Z.to_nat n) x). lia.
Qed.

(** ** 1 <= n <= 25: the polynomials with the literal coefficients *)
Theorem C20_polynomials : forall (n : Z) (x : R), (1 <= n <= 25)%Z -> Rabs x <= pi_d ->
  exists v s, Sl RD n (Some x) = Val (Some v) /\ gc_sum n x s /\ Rabs (v - s) <= (if (n <=? 3)%Z then 1 / 10 ^ 17 else 1 / 10 ^ 27).
Proof.
  intros n x Hn Hx. destruct (Sl_small_accuracy n x Hn (small_no_gap x Hx)) as (v & x' & E & V & _ & SM). rewrite (SM Hx) in V.
  exists v, (Slspec (Z.to_nat n) x). split; [exact E|]. split; [apply gc_sum_spec; lia|exact V].
Qed.
Theorem C20_polynomials_all_angles : forall (n : Z) (x : R), (1 <= n <= 25)%Z -> not_in_gap x ->
  exists v x' s, Sl RD n (Some x) = Val (Some v) /\ gc_sum n x' s /\ Rabs (v - s) <= (if (n <=? 3)%Z then 1 / 10 ^ 17 else 1 / 10 ^ 27) /\
    Rabs (x' - x) <= 6 / 10 ^ 19 * Rabs x + 1 / 10 ^ 19.
Proof.
  intros n x Hn NG. destruct (Sl_small_accuracy n x Hn (not_in_gap_ok x NG)) as (v & x' & E & V & D & _).
  exists v, x', (Slspec (Z.to_nat n) x'). split; [exact E|]. split; [apply gc_sum_spec; lia|]. split; [exact V|exact D].
Qed.
(** ** n >= 26: the partial sum *)
Theorem C20_series : forall (n : Z) (x : R), (26 <= n)%Z ->
  exists v x' s, Sl RD n (Some x) = Val (Some v) /\ gc_sum n x' s /\ Rabs (v - s) <= 4 / 25 * eps_d /\
    Rabs (x' - x) <= 6 / 10 ^ 19 * Rabs x + 1 / 10 ^ 19 /\ (Rabs x <= pi_d -> x' = x).
Proof.
  intros n x Hn. destruct (Sl_series_accuracy n Hn x) as (v & x' & E & V & D & SM).
  exists v, x', (Slspec (Z.to_nat n) x'). split; [exact E|]. split; [apply gc_sum_spec; lia|]. split; [exact V|]. split; [exact D|exact SM].
Qed.
(** ** the sums are the Bernoulli polynomials B_n(x/2pi) times (-1)^(1+floor(n/2)) (2pi)^n / (2 n!) *)
Definition bernoulli_poly (b : nat -> R) (n : nat) (t : R) : R := sum_f_R0 (fun k => Binomial.C n k * b k * t ^ (n - k)) n.
Theorem C20_bernoulli_closed_form : forall (b : nat -> R) (n : nat) (x : R), is_bernoulli b -> (2 <= n)%nat -> 0 <= x <= 2 * PI ->
  gc_sum (Z.of_nat n) x ((-1) ^ (1 + Nat.div2 n) * ((2 * PI) ^ n / (2 * INR (fact n))) * bernoulli_poly b n (x / (2 * PI))).
Proof.
  intros b n x B Hn Hx. pose proof (gc_sum_spec (Z.of_nat n) x ltac:(lia)) as G. rewrite Nat2Z.id in G. rewrite (Slspec_closed n x Hn Hx) in G.
  replace ((-1) ^ (1 + Nat.div2 n) * ((2 * PI) ^ n / (2 * INR (fact n))) * bernoulli_poly b n (x / (2 * PI))) with (dsg n * tp asl n x); [exact G|].
  unfold dsg, bernoulli_poly. cbn [Nat.add pow]. rewrite tp_sum, sum_rev.
  replace (-1 * (-1) ^ Nat.div2 n * ((2 * PI) ^ n / (2 * INR (fact n))) * sum_f_R0 (fun k => Binomial.C n k * b k * (x / (2 * PI)) ^ (n - k)) n)
    with ((-1) ^ Nat.div2 n * (- ((2 * PI) ^ n / (2 * INR (fact n))) * sum_f_R0 (fun k => Binomial.C n k * b k * (x / (2 * PI)) ^ (n - k)) n)) by ring.
  f_equal. rewrite scal_sum. apply sum_eq. intros k Hk. replace (n - (n - k))%nat with k by lia. rewrite (bernoulli_unique b bern B bern_is_bernoulli).
  unfold bern, Binomial.C. pose proof PI_RGT_0. assert (E : (2 * PI) ^ n = (2 * PI) ^ k * (2 * PI) ^ (n - k)) by (rewrite <- pow_add; f_equal; lia).
  replace ((x / (2 * PI)) ^ (n - k)) with (x ^ (n - k) / (2 * PI) ^ (n - k)) by (unfold Rdiv; rewrite (Rpow_mult_distr x (/ (2 * PI))), pow_inv; reflexivity). rewrite E. assert ((2 * PI) ^ k <> 0) by (apply pow_nonzero; lra). assert ((2 * PI) ^ (n - k) <> 0) by (apply pow_nonzero; lra).
  pose proof (INR_fact_neq_0 k). pose proof (INR_fact_neq_0 (n - k)). pose proof (INR_fact_neq_0 n). field. repeat split; assumption.
Qed.
(** non-vacuity *)
Example C20_example : exists v s, Sl RD 4 (Some 1) = Val (Some v) /\ cos_sum 4 1 s /\ Rabs (v - s) <= 1 / 10 ^ 27.
Proof. exact (C20_polynomials 4 1 ltac:(lia) ltac:(unfold pi_d; rewrite Rabs_pos_eq; lra)). Qed.
