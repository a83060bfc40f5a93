(** * Properties, part B: accuracy of the real polylogarithms in exact
    arithmetic (C15, C16).

    [ReLi n x] (Polylog.v) is the specification: the real part of the
    polylogarithm, defined by iterated integrals
      ReLi 1 x = -ln|1-x|,  ReLi (n+1) x = int_0^x ReLi n t / t dt
    (Polylog_series proves it equals  sum x^k/k^n  for |x| <= 1).
    [RD], [RF], [RL], [RQ] (NumR.v) are the exact-arithmetic instances of the
    model: every literal is the exact decimal written in the source and
    +,-,*,/,log are the real operations, [None] meaning a division by zero or a logarithm outside its domain. *)
From Coq Require Import Reals.
From Verif Require Import Num Outcome Model_LiR NumR Polylog Polylog_series
  Polylog_eqs Proof_Li2 Proof_Li3 Proof_Li4.
Open Scope R_scope.

Theorem C15_Li2_double_accuracy : forall x : R,
  exists v, Li2_d RD (Some x) = Some v /\
    Rabs (v - ReLi 2 x) <= 2 / 10^16 * Rmin 1 (Rabs x).
Proof. exact Li2_d_accuracy. Qed.

Theorem C16_Li2_float_accuracy : forall x : R,
  exists v, Li2_f RF (Some x) = Some v /\
    Rabs (v - ReLi 2 x) <= 31 / 10^8 * Rmin 1 (Rabs x).
Proof. exact Li2_f_accuracy. Qed.

Theorem C16_Li2_long_double_accuracy : forall x : R,
  exists v, Li2_l RL (Some x) = Some v /\
    Rabs (v - ReLi 2 x) <= 23 / 10^21 * Rmin 1 (Rabs x).
Proof. exact Li2_l_accuracy. Qed.

Theorem C16_Li2_quad_accuracy : forall x : R,
  exists v, Li2_q RQ (Some x) = Some v /\
    Rabs (v - ReLi 2 x) <= 15 / 10^36 * Rmin 1 (Rabs x).
Proof. exact Li2_q_accuracy. Qed.

(** The specification is the usual one: inside the unit disk it is the power
    series sum x^k/k^n, at 1 it is the zeta series, and it is the only family
    of functions with the usual differential recurrence. *)
Definition spec_series := ReLi_PSeries.
Definition spec_at_1 := ReLi_at_1.
Definition spec_unique := ReLi_unique.
Print Assumptions C15_Li2_double_accuracy.

(** The trilogarithm: besides the error of the approximants the bound contains
    the error of the double constant zeta(2), which the inversion formula
    multiplies by log|x|. *)
Theorem C17_Li3_double_accuracy : forall x : R,
  exists v, Li3_d RD (Some x) = Some v /\
    Rabs (v - ReLi 3 x) <= 3 / 10^16 * Rmin 1 (Rabs x) + 1 / 10^16 * ln (Rmax 1 (Rabs x)).
Proof. exact Li3_d_accuracy. Qed.

Theorem C18_Li4_double_accuracy : forall x : R,
  exists v, Li4_d RD (Some x) = Some v /\
    Rabs (v - ReLi 4 x) <= 2 / 10^16 * Rmin 1 (Rabs x) + 4 / 10^17 * (ln (Rmax 1 (Rabs x)))^2.
Proof. exact Li4_d_accuracy. Qed.
