(** * Model of Li.cpp: Li(n,z) for every integer order *)
From Coq Require Import ZArith List Bool.
From Verif Require Import Num Outcome Model_Tables Model_Zeta Model_LiR Model_LiC.
Import ListNotations.
Local Open Scope Z_scope.
Local Open Scope out_scope.

Section M.
Variable N : num.
Local Notation "x + y" := (add N x y).
Local Notation "x - y" := (sub N x y).
Local Notation "x * y" := (mul N x y).
Local Notation "x / y" := (div N x y).

(* src/cpp/Li.cpp:27 *)
Definition Li_PI : N := lit N 31415926535897932 (-16).

(* src/cpp/Li.cpp:31-34 *)
Definition isfinite (x : N) : bool := (negb (isnan N x) && negb (isinf N x))%bool.
Definition is_finite (z : cpx N) : bool := (isfinite (fst z) && isfinite (snd z))%bool.

(* src/cpp/Li.cpp:37-45 *)
Definition Li_clog (z : cpx N) : cpx N :=
  if (eqb N (snd z) (lit N 0 0) && ltb N (lit N 0 0) (fst z))%bool then (nlog N (fst z), lit N 0 0)
  else if eqb N (snd z) (lit N 0 0) then (nlog N (opp N (fst z)), Li_PI)
  else (nlog N (nhypot N (fst z) (snd z)), carg N z).

Definition czero : cpx N := (lit N 0 0, lit N 0 0).

(* src/cpp/Li.cpp:54-61  the do-while loop of Li_series; state (k, sum, p) before the body *)
Fixpoint Li_series_loop (fuel : nat) (n : Z) (z : cpx N) (k : Z) (sum p : cpx N) : out (cpx N) :=
  match fuel with
  | O => NoFuel
  | S f =>
      let! k := i64 (k + 1)%Z in
      let sum_old := sum in
      let sum := cadd N sum p in
      let p := cmul N p (cmul_cr N z (npow N (ofZ N k / (lit N 1 0 + ofZ N k)) (ofZ N n))) in
      if negb (is_finite p) then Val sum
      else if (negb (ceqb N sum sum_old) && (k <? INT64_MAX - 2))%bool
      then Li_series_loop f n z k sum p
      else Val sum
  end.

(* src/cpp/Li.cpp:49-64 *)
Definition Li_series (fuel : nat) (n : Z) (z : cpx N) : out (cpx N) :=
  Li_series_loop fuel n z 0 czero z.

(* src/cpp/Li.cpp:73-76  for (j = 1; j < n - 1; ++j); returns (sum, p) *)
Fixpoint Li_unity_pos_loop1 (cnt : nat) (j n : Z) (lnz : cpx N) (sum p : cpx N) : out (cpx N * cpx N) :=
  match cnt with
  | O => Val (sum, p)
  | S c =>
      let p := cmul N p (cdiv_cr N lnz (ofZ N j)) in
      let! z := zeta N (n - j)%Z in
      Li_unity_pos_loop1 c (j + 1)%Z n lnz (cadd N sum (cmul_rc N z p)) p
  end.

(* src/cpp/Li.cpp:87-92  for (j = n+3; j < INT64_MAX - 2; j += 2) *)
Fixpoint Li_unity_pos_loop2 (fuel : nat) (j n : Z) (lnz2 : cpx N) (sum p : cpx N) : out (cpx N) :=
  match fuel with
  | O => NoFuel
  | S f =>
      if j <? INT64_MAX - 2 then
        let! jj := i64 ((j - 1) * j)%Z in
        let p := cmul N p (cdiv_cr N lnz2 (ofZ N jj)) in
        let old_sum := sum in
        let! nj := i64 (n - j)%Z in
        let! z := zeta N nj in
        let sum := cadd N sum (cmul_rc N z p) in
        if ceqb N sum old_sum then Val sum
        else
          let! j' := i64 (j + 2)%Z in
          Li_unity_pos_loop2 f j' n lnz2 sum p
      else Val sum
  end.

(* src/cpp/Li.cpp:67-95 *)
Definition Li_unity_pos (fuel : nat) (n : Z) (z : cpx N) : out (cpx N) :=
  let lnz := Li_clog z in
  let lnz2 := cmul N lnz lnz in
  let! zn := zeta N n in
  let sum := (zn, lit N 0 0) in
  let p := (lit N 1 0, lit N 0 0) in
  let! nm1 := i64 (n - 1)%Z in
  let! sp := Li_unity_pos_loop1 (Z.to_nat (nm1 - 1)) 1 n lnz sum p in
  let '(sum, p) := sp in
  let p := cmul N p (cdiv_cr N lnz (ofZ N nm1)) in
  let! h := harmonic N nm1 in
  let sum := cadd N sum (cmul N (csub_rc N h (Li_clog (copp N lnz))) p) in
  let p := cmul N p (cdiv_cr N lnz (ofZ N n)) in
  let! z0 := zeta N 0 in
  let sum := cadd N sum (cmul_rc N z0 p) in
  let! np1 := i64 (n + 1)%Z in
  let p := cmul N p (cdiv_cr N lnz (ofZ N np1)) in
  let! zm1 := zeta N (-1) in
  let sum := cadd N sum (cmul_rc N zm1 p) in
  let! np3 := i64 (n + 3)%Z in
  Li_unity_pos_loop2 fuel np3 n lnz2 sum p.

(** std::pow(std::complex<double>, int64_t): libstdc++ converts the exponent to
    double and computes polar(exp(y*log|z|), y*arg z) (pow(re,y) on the positive
    real axis). *)
Definition cpow (z : cpx N) (y : N) : cpx N :=
  if (eqb N (snd z) (lit N 0 0) && ltb N (lit N 0 0) (fst z))%bool
  then (npow N (fst z) y, lit N 0 0)
  else
    let t := clog N z in
    let rho := nexp N (y * fst t) in
    let theta := y * snd t in
    (rho * ncos N theta, rho * nsin N theta).

(* src/cpp/Li.cpp:98-114 *)
Definition stable_pow (z : cpx N) (n : Z) : out (cpx N) :=
  if eqb N (snd z) (lit N 0 0) then Val (npow N (fst z) (ofZ N n), lit N 0 0)
  else if eqb N (fst z) (lit N 0 0) then
    let p := npow N (snd z) (ofZ N n) in
    if Z.rem n 4 =? 0 then Val (p, lit N 0 0)
    else if Z.rem n 2 =? 0 then Val (opp N p, lit N 0 0)
    else
      let! m := i64 (n - 1)%Z in
      if Z.rem m 4 =? 0 then Val (lit N 0 0, p)
      else Val (lit N 0 0, opp N p)
  else Val (cpow z (ofZ N n)).

(* src/cpp/Li.cpp:134-141  the do-while loop of Li_unity_neg *)
Fixpoint Li_unity_neg_loop (fuel : nat) (n k : Z) (lnz2 lnzk sum : cpx N) : out (cpx N) :=
  match fuel with
  | O => NoFuel
  | S f =>
      let! nk := i64 (n - k)%Z in
      let! z := zeta N nk in
      let! fk := inv_fac N k in
      let term := cmul_rc N (z * fk) lnzk in
      if negb (is_finite term) then Val sum
      else
        let sum_old := sum in
        let sum := cadd N sum term in
        let lnzk := cmul N lnzk lnz2 in
        let! k := i64 (k + 2)%Z in
        if ceqb N sum sum_old then Val sum
        else Li_unity_neg_loop f n k lnz2 lnzk sum
  end.

(* src/cpp/Li.cpp:117-144 *)
Definition Li_unity_neg (fuel : nat) (n : Z) (z : cpx N) : out (cpx N) :=
  let lnz := Li_clog z in
  let lnz2 := cmul N lnz lnz in
  let! omn := i64 (1 - n)%Z in
  let! nm1 := i64 (n - 1)%Z in
  let! sp := stable_pow (copp N lnz) nm1 in
  let sum := cmul_rc N (ntgamma N (ofZ N omn)) sp in
  if is_even n then Li_unity_neg_loop fuel n 1 lnz2 lnz sum
  else
    let! zn := zeta N n in
    Li_unity_neg_loop fuel n 2 lnz2 lnz2 (cadd_cr N sum zn).

(* src/cpp/Li.cpp:155-161  for (k = kmax; k != 0; --k); the variable old_sum of
   the source is never assigned, it keeps its initial value 0.
   inl: returned early because inv_fac underflowed; inr (sum, p): fell through *)
Fixpoint Li_rest_loop (cnt : nat) (k n : Z) (lnz2 sum p : cpx N) : out (cpx N + cpx N * cpx N) :=
  match cnt with
  | O => Val (inr (sum, p))
  | S c =>
      let! ifac := inv_fac N (n - 2 * k)%Z in
      if eqb N ifac (lit N 0 0) then Val (inl sum)
      else
        let! e := neg_eta N (2 * k)%Z in
        let sum := cadd N sum (cmul_rc N (e * ifac) p) in
        let p := cmul N p lnz2 in
        if ceqb N sum czero then Val (inr (sum, p))
        else Li_rest_loop c (k - 1)%Z n lnz2 sum p
  end.

(* src/cpp/Li.cpp:147-164 *)
Definition Li_rest (n : Z) (z : cpx N) : out (cpx N) :=
  let lnz := Li_clog (copp N z) in
  let lnz2 := cmul N lnz lnz in
  let kmax := if is_even n then Z.quot n 2 else Z.quot (n - 1) 2 in
  let p := if is_even n then (lit N 1 0, lit N 0 0) else lnz in
  let! r := Li_rest_loop (Z.to_nat kmax) kmax n lnz2 czero p in
  match r with
  | inl sum => Val (cmul_rc N (lit N 2 0) sum)
  | inr (sum, p) =>
      let! f := inv_fac N n in
      Val (csub N (cmul_rc N (lit N 2 0) sum) (cmul_cr N p f))
  end.

(** principal square root of a complex number.  Simplification: modelled by
    polar coordinates, sqrt|z| (cos(arg z/2), sin(arg z/2)). *)
Definition csqrt (z : cpx N) : cpx N :=
  let r := nsqrt N (cabs N z) in
  let t := carg N z / lit N 2 0 in
  (r * ncos N t, r * nsin N t).

(* src/cpp/Li.cpp:179-228; [fuel] bounds the series loops, [depth] the recursion of lines 207-208 *)
Fixpoint Li (depth fuel : nat) (n : Z) (z : cpx N) : out (cpx N) :=
  let rz := fst z in
  let iz := snd z in
  let zero := lit N 0 0 in
  let one := lit N 1 0 in
  if (isnan N rz || isnan N iz)%bool then Val (nan N, nan N)
  else if (isinf N rz || isinf N iz)%bool then Val (opp N (inf N), lit N 0 0)
  else if (eqb N rz zero && eqb N iz zero)%bool then Val z
  else if (eqb N rz one && eqb N iz zero)%bool then
    if n <=? 0 then Val (inf N, inf N)
    else let! v := zeta N n in Val (v, iz)
  else if (eqb N rz (lit N (-1) 0) && eqb N iz zero)%bool then
    let! v := neg_eta N n in Val (v, iz)
  else if n <? -1 then
    let nz := cnorm N z in
    let nl := cnorm N (Li_clog z) in
    if ltb N (lit N 4 0 * Li_PI * Li_PI * nz) nl then Li_series fuel n z
    else if ltb N nl (lit N 512 (-3) * lit N 512 (-3) * lit N 4 0 * Li_PI * Li_PI) then Li_unity_neg fuel n z
    else
      match depth with
      | O => NoFuel
      | S d =>
          let sqrtz := csqrt z in
          let! nm1 := i64 (n - 1)%Z in
          let! a := Li d fuel n sqrtz in
          let! b := Li d fuel n (copp N sqrtz) in
          Val (cmul_rc N (nexp2 N (ofZ N nm1)) (cadd N a b))
      end
  else if n =? -1 then
    Val (cdiv N z (cmul N (csub_rc N one z) (csub_rc N one z)))
  else if n =? 0 then Val (cdiv N z (csub_rc N one z))
  else if n =? 1 then Val (copp N (Li_clog (csub_rc N one z)))
  else if n =? 2 then Val (cLi2_d N z)
  else if n =? 3 then Val (cLi3_d N z)
  else if n =? 4 then Val (cLi4_d N z)
  else if n =? 5 then Val (cLi5_d N z)
  else if n =? 6 then Val (cLi6_d N z)
  else if leb N (cnorm N z) (lit N 75 (-2) * lit N 75 (-2)) then Li_series fuel n z
  else if leb N (lit N 14 (-1) * lit N 14 (-1)) (cnorm N z) then
    let sgn := if is_even n then lit N (-1) 0 else lit N 1 0 in
    let! s := Li_series fuel n (cdiv_rc N one z) in
    let! r := Li_rest n z in
    Val (cadd N (cmul_rc N sgn s) r)
  else Li_unity_pos fuel n z.

End M.
