(** * Model of Cl.cpp (general order) and Sl.cpp *)
From Coq Require Import ZArith List Bool.
From Verif Require Import Num Outcome Model_Tables Model_Zeta Model_Cl16 Model_SlPoly.
Import ListNotations.
Local Open Scope Z_scope.
Local Open Scope out_scope.

Section M.
Variable N : num.
Local Notation "x + y" := (add N x y).
Local Notation "x - y" := (sub N x y).
Local Notation "x * y" := (mul N x y).
Local Notation "x / y" := (div N x y).

(* src/cpp/Cl.cpp:21 *)
Definition Cl_PI : N := lit N 314159265358979324 (-17).
(* src/cpp/Cl.cpp:22 *)
Definition Cl_PI2 : N := lit N 2 0 * Cl_PI.
(* src/cpp/Cl.cpp:23 *)
Definition N_THRESH : Z := 9.

(* src/cpp/Cl.cpp:82-91  binomial[n][k] *)
Definition binomial : list (list Z) := [
  [1; 0;  0;  0;   0;   0;  0;  0];
  [1; 1;  0;  0;   0;   0;  0;  0];
  [1; 2;  1;  0;   0;   0;  0;  0];
  [1; 3;  3;  1;   0;   0;  0;  0];
  [1; 4;  6;  4;   1;   0;  0;  0];
  [1; 5; 10; 10;   5;   1;  0;  0];
  [1; 6; 15; 20;  15;   6;  1;  0];
  [1; 7; 21; 35;  35;  21;  7;  1]
].

(* src/cpp/Cl.cpp:94-96 *)
Definition inverse_factorial : list N := [
  lit N 1 0; lit N 1 0; lit N 1 0 / lit N 2 0; lit N 1 0 / lit N 6 0; lit N 1 0 / lit N 24 0;
  lit N 1 0 / lit N 120 0; lit N 1 0 / lit N 720 0; lit N 1 0 / lit N 5040 0; lit N 1 0 / lit N 40320 0
].

(* src/cpp/Cl.cpp:111-126  range_reduce_odd; src/cpp/Sl.cpp:24-39 (called range_reduce_even there) *)
Definition range_reduce_noflip (x : N) : N :=
  let x := if ltb N x (lit N 0 0) then opp N x else x in
  let x := if leb N Cl_PI2 x then nfmod N x Cl_PI2 else x in
  if ltb N Cl_PI x then
    let p0 := lit N 628125 (-5) in
    let p1 := lit N 19353071795864769253 (-22) in
    p0 - x + p1
  else x.

(* src/cpp/Cl.cpp:129-150  range_reduce_even; src/cpp/Sl.cpp:42-63 (called range_reduce_odd there).
   Returns (sgn, x). *)
Definition range_reduce_flip (x : N) : N * N :=
  let sgn := lit N 1 0 in
  let '(x, sgn) := if ltb N x (lit N 0 0) then (opp N x, lit N (-1) 0) else (x, sgn) in
  let x := if leb N Cl_PI2 x then nfmod N x Cl_PI2 else x in
  if ltb N Cl_PI x then
    let p0 := lit N 628125 (-5) in
    let p1 := lit N 19353071795864769253 (-22) in
    (opp N sgn, p0 - x + p1)
  else (sgn, x).

(* src/cpp/Cl.cpp:153-164 *)
Definition Cl_range_reduce (n : Z) (x : N) : N * N :=
  if is_even n then range_reduce_flip x else (lit N 1 0, range_reduce_noflip x).

(* src/cpp/Sl.cpp:66-77 *)
Definition Sl_range_reduce (n : Z) (x : N) : N * N :=
  if is_even n then (lit N 1 0, range_reduce_noflip x) else range_reduce_flip x.

(* src/cpp/Cl.cpp:172-175  for (i = 3; i <= n; i += 2), the body run [cnt] times *)
Fixpoint pcal_loop (cnt : nat) (i n : Z) (x2 sum : N) : out N :=
  match cnt with
  | O => Val sum
  | S c =>
      if i <=? n then
        let sign := if is_even (Z.quot (n - 1) 2 + Z.quot (i - 1) 2)%Z then lit N 1 0 else lit N (-1) 0 in
        let! z := tref N CL_ZETA (i - 2)%Z in
        let! f := zref inverse_factorial (n - i)%Z in
        pcal_loop c (i + 2)%Z n x2 (x2 * sum + sign * z * f)
      else Val sum
  end.

(* src/cpp/Cl.cpp:167-182 *)
Definition pcal (n : Z) (x : N) : out N :=
  let x2 := x * x in
  let! sum := pcal_loop (Z.to_nat n) 3 n x2 (lit N 0 0) in
  Val (if is_even n then sum * x else sum).

(* src/cpp/Cl.cpp:192-199  for (k = 1; k <= 202; ++k) *)
Fixpoint ncal_loop (cnt : nat) (k n : Z) (x2 xn sum : N) : out N :=
  match cnt with
  | O => Val sum
  | S c =>
      if k <=? Z.of_nat (length CL_B) then
        let old_sum := sum in
        let! b := tref N CL_B (k - 1)%Z in
        let sum := sum + b * xn / ofZ N (2 * k + n + 1)%Z in
        if eqb N sum old_sum then Val sum
        else ncal_loop c (k + 1)%Z n x2 (xn * x2) sum
      else Val sum
  end.

(* src/cpp/Cl.cpp:185-202 *)
Definition ncal (n : Z) (x : N) : out N :=
  let xn1 := npow N x (ofZ N (n + 1)%Z) in
  let x2 := x * x in
  let xn := xn1 * x2 in
  let! sum := ncal_loop (S (length CL_B)) 1 n x2 xn (lit N 0 0) in
  Val ((xn1 / ofZ N (n + 1)%Z + sum) / ofZ N (n + 1)%Z).

(* src/cpp/Cl.cpp:210-213  for (i = 0; i <= n - 3; ++i); returns (sum, xn) *)
Fixpoint nsum_loop (cnt : nat) (i n : Z) (x sum xn : N) : out (N * N) :=
  match cnt with
  | O => Val (sum, xn)
  | S c =>
      if i <=? (n - 3)%Z then
        let! row := zref binomial (n - 2)%Z in
        let! b := zref row i in
        let! nc := ncal (n - 2 - i)%Z x in
        nsum_loop c (i + 1)%Z n x (sum + ofZ N b * xn * nc) (xn * opp N x)
      else Val (sum, xn)
  end.

(* src/cpp/Cl.cpp:205-216 *)
Definition nsum (n : Z) (x : N) : out N :=
  let! s := nsum_loop (Z.to_nat n) 0 n x (lit N 0 0) (lit N 1 0) in
  let! nc := ncal 0 x in
  Val (fst s + snd s * nc).

(* src/cpp/Cl.cpp:222 and Sl.cpp:83  kmax = static_cast<int64_t>(ceil(pow(eps, -1.0/n)));
   a value outside int64_t is undefined behaviour of the cast *)
Definition series_kmax (n : Z) : out Z :=
  match ceil_to_Z N (npow N (eps N) (lit N (-1) 0 / ofZ N n)) with
  | Some k => i64 k
  | None => Ub
  end.

(* src/cpp/Cl.cpp:231-236 (even n), Sl.cpp:102-107 (odd n): the sine recurrence; [cnt] = kmax - 1 *)
Fixpoint sin_series_loop (cnt : nat) (k n : Z) (co si2 si1 sum : N) : N :=
  match cnt with
  | O => sum
  | S c =>
      let si := lit N 2 0 * co * si1 - si2 in
      sin_series_loop c (k + 1)%Z n co si1 si (sum + si * npow N (ofZ N k) (ofZ N (- n)%Z))
  end.

(* src/cpp/Cl.cpp:241-246 (odd n), Sl.cpp:91-96 (even n): the cosine recurrence *)
Fixpoint cos_series_loop (cnt : nat) (k n : Z) (co co2 co1 sum : N) : N :=
  match cnt with
  | O => sum
  | S c =>
      let con := lit N 2 0 * co * co1 - co2 in
      cos_series_loop c (k + 1)%Z n co co1 con (sum + con * npow N (ofZ N k) (ofZ N (- n)%Z))
  end.

Definition sin_series (n : Z) (x : N) : out N :=
  let! kmax := series_kmax n in
  Val (sin_series_loop (Z.to_nat (kmax - 1)%Z) 2 n (ncos N x) (lit N 0 0) (nsin N x) (nsin N x)).
Definition cos_series (n : Z) (x : N) : out N :=
  let! kmax := series_kmax n in
  Val (cos_series_loop (Z.to_nat (kmax - 1)%Z) 2 n (ncos N x) (lit N 1 0) (ncos N x) (ncos N x)).

(* src/cpp/Cl.cpp:219-250 *)
Definition cl_series (n : Z) (x : N) : out N :=
  if is_even n then sin_series n x else cos_series n x.

(* src/cpp/Sl.cpp:80-111 *)
Definition sl_series (n : Z) (x : N) : out N :=
  if is_even n then cos_series n x else sin_series n x.

(* src/cpp/Cl.cpp:269-324 *)
Definition Cl (n : Z) (x : N) : out N :=
  if n <? 1 then Val (nan N)
  else if n =? 1 then Val (Cl1_d N x)
  else if n =? 2 then Val (Cl2_d N x)
  else if n =? 3 then Val (Cl3_d N x)
  else if n =? 4 then Val (Cl4_d N x)
  else if n =? 5 then Val (Cl5_d N x)
  else if n =? 6 then Val (Cl6_d N x)
  else
    let '(sgn, x) := Cl_range_reduce n x in
    if (is_even n && eqb N x (lit N 0 0))%bool then Val x
    else if (is_even n && eqb N x Cl_PI)%bool then Val (lit N 0 0)
    else if n <=? N_THRESH then
      let sign1 := if is_even (Z.quot (n + 1) 2) then lit N 1 0 else lit N (-1) 0 in
      let! f1 := zref inverse_factorial (n - 1)%Z in
      let term1 := if eqb N x (lit N 0 0) then lit N 0 0
                   else sign1 * npow N x (ofZ N (n - 1)%Z) * f1 * nlog N (lit N 2 0 * nsin N (x / lit N 2 0)) in
      let sign2 := if is_even (Z.quot n 2) then lit N 1 0 else lit N (-1) 0 in
      let! pc := pcal n x in
      let! f2 := zref inverse_factorial (n - 2)%Z in
      let! ns := nsum n x in
      let term2 := pc - sign2 * f2 * ns in
      Val (sgn * (term1 + term2))
    else
      let! s := cl_series n x in Val (sgn * s).

(** the closed formula of branch n of Sl.cpp:136-166, 1 <= n <= 25 *)
Definition Sl_poly (n : Z) : option (N -> N -> N) :=
  nth_error [
    Sl_poly_1 N; Sl_poly_2 N; Sl_poly_3 N; Sl_poly_4 N; Sl_poly_5 N; Sl_poly_6 N; Sl_poly_7 N;
    Sl_poly_8 N; Sl_poly_9 N; Sl_poly_10 N; Sl_poly_11 N; Sl_poly_12 N; Sl_poly_13 N; Sl_poly_14 N;
    Sl_poly_15 N; Sl_poly_16 N; Sl_poly_17 N; Sl_poly_18 N; Sl_poly_19 N; Sl_poly_20 N; Sl_poly_21 N;
    Sl_poly_22 N; Sl_poly_23 N; Sl_poly_24 N; Sl_poly_25 N ] (Z.to_nat (n - 1)).

(* src/cpp/Sl.cpp:125-167 *)
Definition Sl (n : Z) (x : N) : out N :=
  if n <? 1 then Val (nan N)
  else
    let '(sgn, x) := Sl_range_reduce n x in
    if (negb (is_even n) && eqb N x (lit N 0 0))%bool then Val x
    else match Sl_poly n with
         | Some f => Val (f sgn x)
         | None => let! s := sl_series n x in Val (sgn * s)
         end.

End M.
