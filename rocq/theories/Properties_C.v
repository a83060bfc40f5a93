(** * Properties, part C: accuracy of the Clausen functions (C19)

    The specification is the Fourier series itself.  [RD], [RL] are the
    exact-arithmetic instances of the model (see Properties_B.v). *)
From Coq Require Import Reals Lra Lia ZArith.
From Coquelicot Require Import Coquelicot.
From Verif Require Import Num Outcome Model_Cl16 NumR Fourier Clausen Proof_Cl Cl_full.
Open Scope R_scope.

(** the literals written in the source: pi as 3.14159265358979324 (double) and with 36 digits (long double) *)
Definition pi_d : R := 314159265358979324 / 10 ^ 17.
Definition pi_l : R := 314159265358979323846264338327950288 / 10 ^ 35.
(** 6.28125 + 0.0019353071795864769253, the two-part literal for 2 pi *)
Definition two_pi_d : R := 628125 / 10 ^ 5 + 19353071795864769253 / 10 ^ 22.
(** s is the sum of sin(kx)/k^n, resp. cos(kx)/k^n, k = 1, 2, ... *)
Definition sin_sum (n : nat) (x s : R) : Prop := is_series (fun k => sin (INR (S k) * x) / INR (S k) ^ n) s.
Definition cos_sum (n : nat) (x s : R) : Prop := is_series (fun k => cos (INR (S k) * x) / INR (S k) ^ n) s.

Lemma clspec_sin n x : (2 <= n)%nat -> Nat.even n = true -> sin_sum n x (Clspec n x).
Proof. intros H E. unfold Clspec. rewrite E. apply sinser_series. exact H. Qed.
Lemma clspec_cos n x : (2 <= n)%nat -> Nat.even n = false -> cos_sum n x (Clspec n x).
Proof. intros H E. unfold Clspec. rewrite E. apply cosser_series. exact H. Qed.
Lemma small_no_gap x : Rabs x <= pi_d -> ~ in_gap Pd Sd x.
Proof.
  change pi_d with Pd. intros H (k & K & A & B). assert (0 <= IZR k) by (apply (IZR_le 0); exact K). pose proof HPd. pose proof HSPd as E. apply Rabs_lt_between in E.
  assert (0 <= IZR k * (2 * Pd)) by (apply Rmult_le_pos; lra). lra.
Qed.

(** ** one period: x in [-pi, pi] *)
Theorem C19_Cl1_double_accuracy : forall x : R, 0 < Rabs x <= pi_d ->
  exists v, Cl1_d RD (Some x) = Some v /\ cos_sum 1 x v /\ v = - ln (2 * sin (Rabs x / 2)).
Proof.
  intros x Hx. pose proof HPd. pose proof HSPd as E. apply Rabs_lt_between in E. pose proof Pd_err. pose proof Consts.PI_dec20.
  destruct (Cl1_d_accuracy eps_d x) as (v & x' & V & EV & _ & SM); [apply small_no_gap; lra| |].
  - change pi_d with Pd in Hx. intros k. destruct (Z_lt_le_dec k 0) as [L|L].
    { assert (K : IZR k <= -1) by (apply (IZR_le k (-1)); lia).
      assert (M : IZR k * (2 * Pd) <= -1 * (2 * Pd)) by (apply Rmult_le_compat_r; lra).
      assert (G : Sd < 2 * Pd) by (unfold Sd, Pd; lra). split; intros Q; rewrite Q in Hx; lra. }
    destruct (Z.eq_dec k 0) as [->|N]; [split; intros Q; rewrite Rmult_0_l in Q; lra|]. assert (K : 1 <= IZR k) by (apply (IZR_le 1); lia).
    assert (M : 1 * (2 * Pd) <= IZR k * (2 * Pd)) by (apply Rmult_le_compat_r; lra). split; intros Q; rewrite Q in Hx; lra.
  - rewrite (SM (proj2 Hx)) in EV. exists v. split; [exact V|].
    assert (K : Clspec 1 x = - ln (2 * sin (Rabs x / 2)) /\ cos_sum 1 x (Clspec 1 x)).
    { assert (A : Clspec 1 x = Clspec 1 (Rabs x)).
      { unfold Rabs. destruct (Rcase_abs x); [|reflexivity]. rewrite Clspec_opp. unfold par. simpl. ring. }
      assert (P2 : 0 < Rabs x < 2 * PI) by (change pi_d with Pd in Hx; lra).
      split; [rewrite A; apply Cl1_spec; exact P2|].
      unfold cos_sum. apply (is_series_ext (cterm 1 (Rabs x))).
      { intros k. unfold cterm. f_equal. unfold Rabs. destruct (Rcase_abs x); [|reflexivity]. rewrite Ropp_mult_distr_r_reverse, cos_neg. reflexivity. }
      rewrite A, Cl1_spec by exact P2. apply cosser_1. exact P2. }
    destruct K as [K1 K2]. rewrite EV. split; [exact K2|exact K1].
Qed.
Theorem C19_Cl2_double_accuracy : forall x : R, Rabs x <= pi_d ->
  exists v s, Cl2_d RD (Some x) = Some v /\ sin_sum 2 x s /\ Rabs (v - s) <= 3 / 10 ^ 17.
Proof.
  intros x Hx. destruct (Cl2_d_accuracy eps_d x (small_no_gap x Hx)) as (v & x' & E & V & _ & SM). rewrite (SM Hx) in V.
  exists v, (Clspec 2 x). split; [exact E|]. split; [apply clspec_sin; [lia|reflexivity]|exact V].
Qed.
Theorem C19_Cl3_double_accuracy : forall x : R, Rabs x <= pi_d ->
  exists v s, Cl3_d RD (Some x) = Some v /\ cos_sum 3 x s /\ Rabs (v - s) <= 1 / 10 ^ 16.
Proof.
  intros x Hx. destruct (Cl3_d_accuracy eps_d x (small_no_gap x Hx)) as (v & x' & E & V & _ & SM). rewrite (SM Hx) in V.
  exists v, (Clspec 3 x). split; [exact E|]. split; [apply clspec_cos; [lia|reflexivity]|exact V].
Qed.
Theorem C19_Cl4_double_accuracy : forall x : R, Rabs x <= pi_d ->
  exists v s, Cl4_d RD (Some x) = Some v /\ sin_sum 4 x s /\ Rabs (v - s) <= 1 / 10 ^ 16.
Proof.
  intros x Hx. destruct (Cl4_d_accuracy eps_d x (small_no_gap x Hx)) as (v & x' & E & V & _ & SM). rewrite (SM Hx) in V.
  exists v, (Clspec 4 x). split; [exact E|]. split; [apply clspec_sin; [lia|reflexivity]|exact V].
Qed.
Theorem C19_Cl5_double_accuracy : forall x : R, Rabs x <= pi_d ->
  exists v s, Cl5_d RD (Some x) = Some v /\ cos_sum 5 x s /\ Rabs (v - s) <= 7 / 10 ^ 17.
Proof.
  intros x Hx. destruct (Cl5_d_accuracy eps_d x (small_no_gap x Hx)) as (v & x' & E & V & _ & SM). rewrite (SM Hx) in V.
  exists v, (Clspec 5 x). split; [exact E|]. split; [apply clspec_cos; [lia|reflexivity]|exact V].
Qed.
Theorem C19_Cl6_double_accuracy : forall x : R, Rabs x <= pi_d ->
  exists v s, Cl6_d RD (Some x) = Some v /\ sin_sum 6 x s /\ Rabs (v - s) <= 6 / 10 ^ 16.
Proof.
  intros x Hx. destruct (Cl6_d_accuracy eps_d x (small_no_gap x Hx)) as (v & x' & E & V & _ & SM). rewrite (SM Hx) in V.
  exists v, (Clspec 6 x). split; [exact E|]. split; [apply clspec_sin; [lia|reflexivity]|exact V].
Qed.
Theorem C19_Cl2_long_double_accuracy : forall x : R, Rabs x <= pi_l ->
  exists v s, Cl2_l RL (Some x) = Some v /\ sin_sum 2 x s /\ Rabs (v - s) <= 1 / 10 ^ 35.
Proof.
  intros x Hx. destruct (Cl2_l_accuracy eps_l x) as (v & x' & E & V & _ & SM). rewrite (SM Hx) in V.
  exists v, (Clspec 2 x). split; [exact E|]. split; [apply clspec_sin; [lia|reflexivity]|exact V].
Qed.
Theorem C19_Cl3_long_double_accuracy : forall x : R, Rabs x <= pi_l ->
  exists v s, Cl3_l RL (Some x) = Some v /\ cos_sum 3 x s /\ Rabs (v - s) <= 7 / 10 ^ 26.
Proof.
  intros x Hx. destruct (Cl3_l_accuracy eps_l x) as (v & x' & E & V & _ & SM). rewrite (SM Hx) in V.
  exists v, (Clspec 3 x). split; [exact E|]. split; [apply clspec_cos; [lia|reflexivity]|exact V].
Qed.
Theorem C19_Cl4_long_double_accuracy : forall x : R, Rabs x <= pi_l ->
  exists v s, Cl4_l RL (Some x) = Some v /\ sin_sum 4 x s /\ Rabs (v - s) <= 1 / 10 ^ 25.
Proof.
  intros x Hx. destruct (Cl4_l_accuracy eps_l x) as (v & x' & E & V & _ & SM). rewrite (SM Hx) in V.
  exists v, (Clspec 4 x). split; [exact E|]. split; [apply clspec_sin; [lia|reflexivity]|exact V].
Qed.
Theorem C19_Cl5_long_double_accuracy : forall x : R, Rabs x <= pi_l ->
  exists v s, Cl5_l RL (Some x) = Some v /\ cos_sum 5 x s /\ Rabs (v - s) <= 7 / 10 ^ 26.
Proof.
  intros x Hx. destruct (Cl5_l_accuracy eps_l x) as (v & x' & E & V & _ & SM). rewrite (SM Hx) in V.
  exists v, (Clspec 5 x). split; [exact E|]. split; [apply clspec_cos; [lia|reflexivity]|exact V].
Qed.
Theorem C19_Cl6_long_double_accuracy : forall x : R, Rabs x <= pi_l ->
  exists v s, Cl6_l RL (Some x) = Some v /\ sin_sum 6 x s /\ Rabs (v - s) <= 1 / 10 ^ 25.
Proof.
  intros x Hx. destruct (Cl6_l_accuracy eps_l x) as (v & x' & E & V & _ & SM). rewrite (SM Hx) in V.
  exists v, (Clspec 6 x). split; [exact E|]. split; [apply clspec_sin; [lia|reflexivity]|exact V].
Qed.

(** ** every x: the value is that of the Clausen function at an angle x' next to x

    The distance is the relative error of the literals for pi.  In double the
    literal 2*3.14159265358979324 exceeds p0+p1 = 6.2831853071795864769253 by
    3e-18; angles that close below a multiple of it are excluded (in exact
    arithmetic their reflection is negative; no double lies there, see C10). *)
Definition not_in_gap (x : R) : Prop :=
  forall k : Z, (0 <= k)%Z -> ~ (IZR k * (2 * pi_d) + two_pi_d < Rabs x < (IZR k + 1) * (2 * pi_d)).
Lemma not_in_gap_ok x : not_in_gap x -> ~ in_gap Pd Sd x.
Proof. intros H (k & K & G). exact (H k K G). Qed.
Example not_in_gap_example : not_in_gap 100.
Proof.
  intros k K [A B]. rewrite Rabs_pos_eq in * by lra. unfold pi_d, two_pi_d in *.
  destruct (Z_le_gt_dec k 14) as [L|L].
  - assert (IZR k <= 14) by (apply (IZR_le k 14); lia). lra.
  - assert (15 <= IZR k) by (apply (IZR_le 15); lia). lra.
Qed.
Theorem C19_Cl2_double_all_angles : forall x : R, not_in_gap x ->
  exists v x' s, Cl2_d RD (Some x) = Some v /\ sin_sum 2 x' s /\ Rabs (v - s) <= 3 / 10 ^ 17 /\
    Rabs (x' - x) <= 6 / 10 ^ 19 * Rabs x + 1 / 10 ^ 19.
Proof.
  intros x NG. destruct (Cl2_d_accuracy eps_d x (not_in_gap_ok x NG)) as (v & x' & E & V & D & _).
  exists v, x', (Clspec 2 x'). split; [exact E|]. split; [apply clspec_sin; [lia|reflexivity]|]. split; [exact V|exact D].
Qed.
Theorem C19_Cl3_double_all_angles : forall x : R, not_in_gap x ->
  exists v x' s, Cl3_d RD (Some x) = Some v /\ cos_sum 3 x' s /\ Rabs (v - s) <= 1 / 10 ^ 16 /\
    Rabs (x' - x) <= 6 / 10 ^ 19 * Rabs x + 1 / 10 ^ 19.
Proof.
  intros x NG. destruct (Cl3_d_accuracy eps_d x (not_in_gap_ok x NG)) as (v & x' & E & V & D & _).
  exists v, x', (Clspec 3 x'). split; [exact E|]. split; [apply clspec_cos; [lia|reflexivity]|]. split; [exact V|exact D].
Qed.
Theorem C19_Cl4_double_all_angles : forall x : R, not_in_gap x ->
  exists v x' s, Cl4_d RD (Some x) = Some v /\ sin_sum 4 x' s /\ Rabs (v - s) <= 1 / 10 ^ 16 /\
    Rabs (x' - x) <= 6 / 10 ^ 19 * Rabs x + 1 / 10 ^ 19.
Proof.
  intros x NG. destruct (Cl4_d_accuracy eps_d x (not_in_gap_ok x NG)) as (v & x' & E & V & D & _).
  exists v, x', (Clspec 4 x'). split; [exact E|]. split; [apply clspec_sin; [lia|reflexivity]|]. split; [exact V|exact D].
Qed.
Theorem C19_Cl5_double_all_angles : forall x : R, not_in_gap x ->
  exists v x' s, Cl5_d RD (Some x) = Some v /\ cos_sum 5 x' s /\ Rabs (v - s) <= 7 / 10 ^ 17 /\
    Rabs (x' - x) <= 6 / 10 ^ 19 * Rabs x + 1 / 10 ^ 19.
Proof.
  intros x NG. destruct (Cl5_d_accuracy eps_d x (not_in_gap_ok x NG)) as (v & x' & E & V & D & _).
  exists v, x', (Clspec 5 x'). split; [exact E|]. split; [apply clspec_cos; [lia|reflexivity]|]. split; [exact V|exact D].
Qed.
Theorem C19_Cl6_double_all_angles : forall x : R, not_in_gap x ->
  exists v x' s, Cl6_d RD (Some x) = Some v /\ sin_sum 6 x' s /\ Rabs (v - s) <= 6 / 10 ^ 16 /\
    Rabs (x' - x) <= 6 / 10 ^ 19 * Rabs x + 1 / 10 ^ 19.
Proof.
  intros x NG. destruct (Cl6_d_accuracy eps_d x (not_in_gap_ok x NG)) as (v & x' & E & V & D & _).
  exists v, x', (Clspec 6 x'). split; [exact E|]. split; [apply clspec_sin; [lia|reflexivity]|]. split; [exact V|exact D].
Qed.
Theorem C19_Cl2_long_double_all_angles : forall x : R,
  exists v x' s, Cl2_l RL (Some x) = Some v /\ sin_sum 2 x' s /\ Rabs (v - s) <= 1 / 10 ^ 35 /\
    Rabs (x' - x) <= 14 / 10 ^ 37 * Rabs x + 1 / 10 ^ 38.
Proof.
  intros x. destruct (Cl2_l_accuracy eps_l x) as (v & x' & E & V & D & _).
  exists v, x', (Clspec 2 x'). split; [exact E|]. split; [apply clspec_sin; [lia|reflexivity]|]. split; [exact V|exact D].
Qed.
Theorem C19_Cl3_long_double_all_angles : forall x : R,
  exists v x' s, Cl3_l RL (Some x) = Some v /\ cos_sum 3 x' s /\ Rabs (v - s) <= 7 / 10 ^ 26 /\
    Rabs (x' - x) <= 14 / 10 ^ 37 * Rabs x + 1 / 10 ^ 38.
Proof.
  intros x. destruct (Cl3_l_accuracy eps_l x) as (v & x' & E & V & D & _).
  exists v, x', (Clspec 3 x'). split; [exact E|]. split; [apply clspec_cos; [lia|reflexivity]|]. split; [exact V|exact D].
Qed.
Theorem C19_Cl4_long_double_all_angles : forall x : R,
  exists v x' s, Cl4_l RL (Some x) = Some v /\ sin_sum 4 x' s /\ Rabs (v - s) <= 1 / 10 ^ 25 /\
    Rabs (x' - x) <= 14 / 10 ^ 37 * Rabs x + 1 / 10 ^ 38.
Proof.
  intros x. destruct (Cl4_l_accuracy eps_l x) as (v & x' & E & V & D & _).
  exists v, x', (Clspec 4 x'). split; [exact E|]. split; [apply clspec_sin; [lia|reflexivity]|]. split; [exact V|exact D].
Qed.
Theorem C19_Cl5_long_double_all_angles : forall x : R,
  exists v x' s, Cl5_l RL (Some x) = Some v /\ cos_sum 5 x' s /\ Rabs (v - s) <= 7 / 10 ^ 26 /\
    Rabs (x' - x) <= 14 / 10 ^ 37 * Rabs x + 1 / 10 ^ 38.
Proof.
  intros x. destruct (Cl5_l_accuracy eps_l x) as (v & x' & E & V & D & _).
  exists v, x', (Clspec 5 x'). split; [exact E|]. split; [apply clspec_cos; [lia|reflexivity]|]. split; [exact V|exact D].
Qed.
Theorem C19_Cl6_long_double_all_angles : forall x : R,
  exists v x' s, Cl6_l RL (Some x) = Some v /\ sin_sum 6 x' s /\ Rabs (v - s) <= 1 / 10 ^ 25 /\
    Rabs (x' - x) <= 14 / 10 ^ 37 * Rabs x + 1 / 10 ^ 38.
Proof.
  intros x. destruct (Cl6_l_accuracy eps_l x) as (v & x' & E & V & D & _).
  exists v, x', (Clspec 6 x'). split; [exact E|]. split; [apply clspec_sin; [lia|reflexivity]|]. split; [exact V|exact D].
Qed.

Print Assumptions C19_Cl2_double_accuracy.
Print Assumptions C19_Cl6_long_double_all_angles.
