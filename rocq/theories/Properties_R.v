(** * Properties, part R: Cl(n,x) for 7 <= n <= 9 (C22)

    The code evaluates Eq. (2.13) of Wu, Zhang, Liu with four constant tables.
    Reading a table outside its bounds is [Ub] in the model, so a [Val] result
    says that every index, in every iteration of every loop, was in range. *)
From Coq Require Import Reals Lra Lia ZArith.
From Coquelicot Require Import Coquelicot.
From Verif Require Import Num Outcome NumR NumB Fourier Clausen Proof_Cl Cl_full Red Properties_C Proof_NaN Cl_mid Model_Cl.
Open Scope R_scope.

(** for every arithmetic (IEEE double with any libm, exact, ...), order and argument *)
Theorem C22_table_reads_in_range : forall (N : num) (n : Z) (x : N), (7 <= n <= 9)%Z -> exists v, Cl N n x = Val v.
Proof.
  intros N n x H. rewrite Cl_mid_eq by exact H. destruct (Cl_range_reduce N n x) as [sgn y].
  destruct (_ && _)%bool; [eauto|]. destruct (_ && _)%bool; [eauto|]. unfold mid.
  destruct (zref_defined (inverse_factorial N) (n - 1)) as [f1 ->]; [change (Z.of_nat (length (inverse_factorial N))) with 9%Z; lia|]. cbn [bind].
  destruct (pcal_defined N n y ltac:(lia)) as [pc ->]. cbn [bind].
  destruct (zref_defined (inverse_factorial N) (n - 2)) as [f2 ->]; [change (Z.of_nat (length (inverse_factorial N))) with 9%Z; lia|]. cbn [bind].
  destruct (nsum_defined N n y ltac:(lia)) as [ns ->]. cbn [bind]. eauto.
Qed.
(** one more iteration would leave the table B: the bound 202 is the length of the table *)
Example C22_last_index : exists v : RD, Model_Zeta.tref RD Model_Tables.CL_B 201 = Val v /\ Model_Zeta.tref RD Model_Tables.CL_B 202 = Ub.
Proof. eexists. split; reflexivity. Qed.

(** the value: sum of cos(kx)/k^n for odd n, of sin(kx)/k^n for even n *)
Definition clausen_sum (n : Z) (x s : R) : Prop := if Z.even n then sin_sum (Z.to_nat n) x s else cos_sum (Z.to_nat n) x s.
Lemma even_nat n : (0 <= n)%Z -> Nat.even (Z.to_nat n) = Z.even n.
Proof.
  intros H. destruct (Z.even n) eqn:E.
  - apply Nat.even_spec. apply Z.even_spec in E. destruct E as [k ->]. exists (Z.to_nat k). lia.
  - rewrite <- Nat.negb_odd. assert (Nat.odd (Z.to_nat n) = true) as ->; [|reflexivity]. apply Nat.odd_spec. rewrite <- Z.negb_odd in E. apply Bool.negb_false_iff, Z.odd_spec in E. destruct E as [k ->]. exists (Z.to_nat k). lia.
Qed.
Lemma clausen_sum_ok n x : (2 <= n)%Z -> clausen_sum n x (Clspec (Z.to_nat n) x).
Proof.
  intros H. unfold clausen_sum. destruct (Z.even n) eqn:E; [apply clspec_sin|apply clspec_cos]; try lia; rewrite even_nat by lia; exact E.
Qed.
Theorem C22_accuracy : forall (n : Z) (x : R), (7 <= n <= 9)%Z -> Rabs x <= pi_d ->
  exists v s, Cl RD n (Some x) = Val (Some v) /\ clausen_sum n x s /\ Rabs (v - s) <= 2 / 10 ^ 15.
Proof.
  intros n x Hn Hx. destruct (Cl_mid_accuracy n x Hn (small_no_gap x Hx)) as (v & x' & E & V & _ & SM). rewrite (SM Hx) in V.
  exists v, (Clspec (Z.to_nat n) x). split; [exact E|]. split; [apply clausen_sum_ok; lia|exact V].
Qed.
(** every angle (cf. C19: x' is x up to the relative error of the literals for pi) *)
Theorem C22_all_angles : forall (n : Z) (x : R), (7 <= n <= 9)%Z -> not_in_gap x ->
  exists v x' s, Cl RD n (Some x) = Val (Some v) /\ clausen_sum n x' s /\ Rabs (v - s) <= 2 / 10 ^ 15 /\
    Rabs (x' - x) <= 6 / 10 ^ 19 * Rabs x + 1 / 10 ^ 19.
Proof.
  intros n x Hn NG. destruct (Cl_mid_accuracy n x Hn (not_in_gap_ok x NG)) as (v & x' & E & V & D & _).
  exists v, x', (Clspec (Z.to_nat n) x'). split; [exact E|]. split; [apply clausen_sum_ok; lia|]. split; [exact V|exact D].
Qed.
Example C22_nonvacuous : (7 <= 8 <= 9)%Z /\ Rabs (-2) <= pi_d /\ not_in_gap 100.
Proof. split; [lia|]. split; [rewrite Rabs_left by lra; unfold pi_d; lra|exact not_in_gap_example]. Qed.
