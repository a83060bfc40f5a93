(** * Model of zeta.cpp, eta.cpp, factorial.cpp and harmonic.cpp *)
From Coq Require Import ZArith List Bool.
From Verif Require Import Num Outcome Model_Tables.
Import ListNotations.
Local Open Scope Z_scope.
Local Open Scope out_scope.

Section M.
Variable N : num.
Local Notation "x + y" := (add N x y).
Local Notation "x - y" := (sub N x y).
Local Notation "x * y" := (mul N x y).
Local Notation "x / y" := (div N x y).

(** Element of a table of decimal literals. *)
Definition tref (t : list (Z * Z)) (i : Z) : out N :=
  let! d := zref t i in Val (lit N (fst d) (snd d)).

(* src/cpp/zeta.cpp:83-104 *)
Definition zeta (n : Z) : out N :=
  if n <? 0 then
    if is_even n then Val (lit N 0 0)
    else
      let! a := i64 (1 + n)%Z in
      let! b := i64 (- a) in
      let i := Z.quot b 2 in
      if i <? Z.of_nat (length ZETAS_NEG) then tref ZETAS_NEG i
      else
        let! c := i64 (1 - n)%Z in
        if is_even (Z.quot c 2) then Val (inf N) else Val (opp N (inf N))
  else if n =? 0 then Val (lit N (-5) (-1))
  else if n =? 1 then Val (inf N)
  else
    let! d := i64 (n - 2)%Z in
    if d <? Z.of_nat (length ZETAS_POS) then tref ZETAS_POS d
    else Val (lit N 1 0 / (lit N 1 0 - npow N (lit N 5 (-1)) (ofZ N n))).

(* src/cpp/eta.cpp:81-100 *)
Definition neg_eta (n : Z) : out N :=
  if n <? 0 then
    if is_even n then Val (lit N 0 0)
    else
      let! a := i64 (1 + n)%Z in
      let! b := i64 (- a) in
      let i := Z.quot b 2 in
      if i <? Z.of_nat (length NEG_ETA_NEG_N) then tref NEG_ETA_NEG_N i
      else
        let! c := i64 (1 - n)%Z in
        if is_even (Z.quot c 2) then Val (inf N) else Val (opp N (inf N))
  else if n =? 0 then Val (lit N (-5) (-1))
  else if n <=? Z.of_nat (length NEG_ETA) then
    let! d := i64 (n - 1)%Z in tref NEG_ETA d
  else Val (lit N (-1) 0).

(* src/cpp/factorial.cpp:80-89 *)
Definition inv_fac (n : Z) : out N :=
  if n <? 0 then Val (nan N)
  else if n <? Z.of_nat (length INVERSE_FACTORIALS) then tref INVERSE_FACTORIALS n
  else Val (lit N 0 0).

(* src/cpp/harmonic.cpp:35-37  for (nu = 1; nu < 7 - n; ++nu) res -= 1.0/(n + nu) *)
Fixpoint digamma_rec (cnt : nat) (nu n : Z) (res : N) : N :=
  match cnt with
  | O => res
  | S k => digamma_rec k (nu + 1)%Z n (res - lit N 1 0 / ofZ N (n + nu)%Z)
  end.

(** element of DIGAMMA_C as a number; in-bounds constant indices only *)
Definition dc (i : nat) : N :=
  match nth_error DIGAMMA_C i with Some d => lit N (fst d) (snd d) | None => nan N end.

(* src/cpp/harmonic.cpp:20-49.  n > 0 and n < 7 makes 7 - n and n + nu trivially
   representable, so they are not checked. *)
Definition digamma (n : Z) : N :=
  if n <=? 0 then nan N
  else
    let res := lit N 0 0 in
    let '(res, n) :=
      if n <? 7 then
        let res := digamma_rec (Z.to_nat (7 - n - 1)%Z) 1 n res in
        let res := res - lit N 1 0 / ofZ N n in
        (res, 7)
      else (res, n) in
    let t := lit N 1 0 / ofZ N n in
    let t2 := t * t in
    res + nlog N (ofZ N n) - lit N 5 (-1) * t
    - t2 * (dc 0 + t2 * (dc 1 + t2 * (dc 2 + t2 * (dc 3 + t2 * (dc 4 + t2 * (dc 5 + t2 * (dc 6 + t2 * dc 7))))))).

(* src/cpp/harmonic.cpp:58-62  sum += 1.0/k for k = 2..n *)
Fixpoint harmonic_sum (cnt : nat) (k : Z) (sum : N) : N :=
  match cnt with
  | O => sum
  | S c => harmonic_sum c (k + 1)%Z (sum + lit N 1 0 / ofZ N k)
  end.

(* src/cpp/harmonic.cpp:54-68 *)
Definition harmonic (n : Z) : out N :=
  if n <=? 0 then Val (nan N)
  else if n <? 20 then Val (harmonic_sum (Z.to_nat (n - 1)%Z) 2 (lit N 1 0))
  else
    let! m := i64 (n + 1)%Z in
    Val (lit N 57721566490153286 (-17) + digamma m).

End M.
