(** * Certified decimal enclosures of pi and log 2 (coq-interval). *)
From Coq Require Import Reals Lra.
From Interval Require Import Tactic.
Local Open Scope R_scope.
Lemma PI_dec : Rabs (PI - 314159265358979323846264338327950288419716939937510 / 10 ^ 50) <= / 10 ^ 48.
Proof. interval with (i_prec 180). Qed.
Lemma PI_dec20 : 3.14159265358979323846 < PI < 3.14159265358979323847.
Proof. split; interval with (i_prec 90). Qed.
Lemma ln2_dec : Rabs (ln 2 - 69314718055994530941723212145817656807550013436 / 10 ^ 47) <= / 10 ^ 46.
Proof. interval with (i_prec 180). Qed.
