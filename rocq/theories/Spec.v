(** * Spec: the mathematical notions the property theorems refer to.

    Nothing in this file mentions the model of the code.  Complex numbers are
    Coquelicot's [C] = R * R with [Cplus], [Cmult], [Cinv], [Cmod], [Cconj]. *)
From Coq Require Import ZArith Reals List.
From Coquelicot Require Import Coquelicot.
Import ListNotations.
Local Open Scope R_scope.

(** ** Polynomials *)
(** c_0 + c_1 x + ... + c_{n-1} x^{n-1} *)
Definition poly (c : list R) (x : R) : R :=
  sum_f_R0 (fun i => nth i c 0 * x ^ i) (length c).
(** complex powers and the complex polynomial with real coefficients *)
Fixpoint Cpow (z : C) (n : nat) : C := match n with O => RtoC 1 | S k => Cmult z (Cpow z k) end.
Fixpoint Csum (f : nat -> C) (n : nat) : C := match n with O => RtoC 0 | S k => Cplus (Csum f k) (f k) end.
Definition cpoly (c : list R) (z : C) : C :=
  Csum (fun i => Cmult (RtoC (nth i c 0)) (Cpow z i)) (length c).

(** ** Complex exponential *)
Definition Cexp (z : C) : C := (exp (fst z) * cos (snd z), exp (fst z) * sin (snd z)).
(** [w] is the principal logarithm of [z] *)
Definition is_Clog (z w : C) : Prop := Cexp w = z /\ - PI < snd w <= PI.
