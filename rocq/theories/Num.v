(** * Num: the arithmetic interface of the model.

    The numeric code of /repo is written once, over an abstract record of the
    scalar operations it uses; the record is then instantiated

    - with exact real arithmetic with a poison value (NumR.v), and
    - with IEEE-754 binary64 arithmetic, Flocq's [binary_float 53 1024],
      with the libm functions as an explicit oracle (NumB64.v).

    [lit m e] is the decimal literal m * 10^e of the source text. *)
From Coq Require Import ZArith List Bool.
Import ListNotations.

Record num : Type := Num {
  car :> Type;
  lit : Z -> Z -> car;                    (* decimal literal m*10^e *)
  ofZ : Z -> car;                         (* int64 -> floating conversion *)
  add : car -> car -> car;
  sub : car -> car -> car;
  mul : car -> car -> car;
  div : car -> car -> car;
  opp : car -> car;
  ltb : car -> car -> bool;               (* a < b *)
  leb : car -> car -> bool;               (* a <= b *)
  eqb : car -> car -> bool;               (* a == b *)
  isnan : car -> bool;                    (* std::isnan *)
  isinf : car -> bool;                    (* std::isinf *)
  nan : car;                              (* numeric_limits::quiet_NaN() *)
  inf : car;                              (* numeric_limits::infinity() *)
  eps : car;                              (* numeric_limits::epsilon() *)
  (* libm *)
  nlog : car -> car;
  nlog1p : car -> car;
  nsin : car -> car;
  ncos : car -> car;
  nexp : car -> car;
  nsqrt : car -> car;
  nfmod : car -> car -> car;
  npow : car -> car -> car;
  nhypot : car -> car -> car;
  natan2 : car -> car -> car;              (* atan2 y x *)
  natan : car -> car;
  nexp2 : car -> car;
  ntgamma : car -> car;
  ceil_to_Z : car -> option Z             (* static_cast<int64_t>(std::ceil(x)); None: not representable *)
}.

(** std::complex<T>: (real part, imaginary part). *)
Definition cpx (N : num) : Type := (car N * car N)%type.

Section Ops.
Variable N : num.

Declare Scope num_scope.
Local Notation "x + y" := (add N x y).
Local Notation "x - y" := (sub N x y).
Local Notation "x * y" := (mul N x y).
Local Notation "x / y" := (div N x y).

(** Array element; a read past the end of the array is the poison value. *)
Definition aref (c : list N) (i : nat) : N := nth i c (nan N).

(** std::complex arithmetic (libstdc++ <complex>): mixed real/complex operands
    act on the components without promoting the real operand.
    Simplification: the Annex-G recovery of NaN results in multiplication and
    the operand scaling inside the division are not modelled. *)
Definition copp (z : cpx N) : cpx N := (opp N (fst z), opp N (snd z)).
Definition cadd (z w : cpx N) : cpx N := (fst z + fst w, snd z + snd w).
Definition cadd_rc (r : N) (z : cpx N) : cpx N := (r + fst z, snd z).
Definition cadd_cr (z : cpx N) (r : N) : cpx N := (fst z + r, snd z).
Definition csub (z w : cpx N) : cpx N := (fst z - fst w, snd z - snd w).
Definition csub_rc (r : N) (z : cpx N) : cpx N := (r - fst z, opp N (snd z)).
Definition csub_cr (z : cpx N) (r : N) : cpx N := (fst z - r, snd z).
Definition cmul (z w : cpx N) : cpx N :=
  (fst z * fst w - snd z * snd w, fst z * snd w + snd z * fst w).
Definition cmul_rc (r : N) (z : cpx N) : cpx N := (fst z * r, snd z * r).
Definition cmul_cr (z : cpx N) (r : N) : cpx N := (fst z * r, snd z * r).
Definition cnorm (z : cpx N) : N := fst z * fst z + snd z * snd z.
Definition cdiv (z w : cpx N) : cpx N :=
  let d := cnorm w in
  ((fst z * fst w + snd z * snd w) / d, (snd z * fst w - fst z * snd w) / d).
Definition cdiv_rc (r : N) (w : cpx N) : cpx N :=
  let d := cnorm w in
  ((r * fst w) / d, opp N ((r * snd w) / d)).
Definition cdiv_cr (z : cpx N) (r : N) : cpx N := (fst z / r, snd z / r).
Definition cabs (z : cpx N) : N := nhypot N (fst z) (snd z).
Definition carg (z : cpx N) : N := natan2 N (snd z) (fst z).
(** std::log(std::complex): (log |z|, arg z). *)
Definition clog (z : cpx N) : cpx N := (nlog N (cabs z), carg z).
Definition ceqb (z w : cpx N) : bool := (eqb N (fst z) (fst w) && eqb N (snd z) (snd w))%bool.

(** horner.hpp:13-21  real Horner scheme over an array of N coefficients
    (N >= 1; the empty array has no C++ counterpart and is poison). *)
Definition horner (x : N) (c : list N) : N :=
  match rev c with
  | [] => nan N
  | top :: lower => fold_left (fun p ci => p * x + ci) lower top
  end.

(** horner.hpp:24-42  complex two-term-recurrence Horner scheme horner<Nstart>.
    [a] and [b] start at c[N-1], c[N-2]; the loop visits c[N-3] .. c[Nstart]. *)
Definition chorner_loop (r s : N) (cs : list N) (a b : N) : N * N :=
  fold_left (fun ab ci => (snd ab + r * fst ab, ci - s * fst ab)) cs (a, b).
Definition chorner (Nstart : nat) (z : cpx N) (c : list N) : cpx N :=
  match rev c with
  | a :: b :: lower =>
      let rz := fst z in let iz := snd z in
      let r := rz + rz in let s := cnorm z in
      let ab := chorner_loop r s (firstn (length c - 2 - Nstart) lower) a b in
      (rz * fst ab + snd ab, iz * fst ab)
  | _ => (nan N, nan N)                      (* static_assert N >= 2 *)
  end.

(** log.hpp:16-28  log(1+z) for complex z. *)
Definition clog1p (z : cpx N) : cpx N :=
  let u := cadd_rc (lit N 1 0) z in
  if (eqb N (fst u) (lit N 1 0) && eqb N (snd u) (lit N 0 0))%bool then z
  else if leb N (fst u) (lit N 0 0) then clog u
  else cmul (clog u) (cdiv z (csub_cr u (lit N 1 0))).

(** log.hpp:38-48  complex log with Im = +pi on the negative real axis. *)
Definition pos_log (z : cpx N) : cpx N :=
  if (eqb N (snd z) (lit N 0 0) && ltb N (lit N 0 0) (fst z))%bool
  then (nlog N (fst z), lit N 0 0)
  else if eqb N (snd z) (lit N 0 0)
  then (nlog N (opp N (fst z)), lit N 4 0 * natan N (lit N 1 0))
  else clog z.

End Ops.
