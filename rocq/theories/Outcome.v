(** * Outcomes of a C++ call: a value, undefined behaviour, or model fuel exhausted.

    Signed 64-bit integer arithmetic is modelled on Z; a result outside
    [-2^63, 2^63) is undefined behaviour (never wrapped).  Reading an array
    outside its bounds is undefined behaviour as well. *)
From Coq Require Import ZArith List.
Import ListNotations.

Inductive out (A : Type) : Type :=
| Val (a : A)
| Ub                      (* undefined behaviour *)
| NoFuel.                 (* the model ran out of fuel (never a C++ behaviour) *)
Arguments Val {A} a.
Arguments Ub {A}.
Arguments NoFuel {A}.

Definition bind {A B} (x : out A) (f : A -> out B) : out B :=
  match x with Val a => f a | Ub => Ub | NoFuel => NoFuel end.
Declare Scope out_scope.
Notation "'let!' x := a 'in' b" := (bind a (fun x => b))
  (at level 200, x name, a at level 100, b at level 200) : out_scope.

Local Open Scope Z_scope.
Definition INT64_MIN : Z := - 2 ^ 63.
Definition INT64_MAX : Z := 2 ^ 63 - 1.

(** the type int64_t *)
Definition is_int64 (n : Z) : Prop := INT64_MIN <= n <= INT64_MAX.

(** checked result of one int64_t operation *)
Definition i64 (z : Z) : out Z :=
  if ((INT64_MIN <=? z) && (z <=? INT64_MAX))%bool then Val z else Ub.

(** array element with a signed index; out of bounds is undefined behaviour *)
Definition zref {A} (l : list A) (i : Z) : out A :=
  if i <? 0 then Ub
  else match nth_error l (Z.to_nat i) with Some a => Val a | None => Ub end.

(** n % 2 == 0 (C++ remainder truncates towards zero) *)
Definition is_even (n : Z) : bool := Z.rem n 2 =? 0.
