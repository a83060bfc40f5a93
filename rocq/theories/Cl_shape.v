(** * The common shape of Cl2 .. Cl6: argument reduction, special points, core

    [Cln_t N x = cl_even ... x] or [cl_odd ... x] by conversion; the cores and
    polynomials are the text of Model_Cl16.v.  Generated by tools/gen_cl_shape.py. *)
From Coq Require Import ZArith List Bool.
From Verif Require Import Num Model_Cl16.
Import ListNotations.
Local Open Scope Z_scope.

Section M.
Variable N : num.
Local Notation "x + y" := (add N x y).
Local Notation "x - y" := (sub N x y).
Local Notation "x * y" := (mul N x y).
Local Notation "x / y" := (div N x y).
Local Notation aref N c i := (Num.aref N c i%nat).
Definition PId := lit N 314159265358979324 (-17).
Definition PIl := lit N 314159265358979323846264338327950288 (-35).
Definition p1d := lit N 19353071795864769253 (-22).
Definition p1l := lit N 19353071795864769252867665590057683943 (-40).

Definition cl_even (PI p1 : N) (core : N -> N) (x : N) : N :=
  let '(x, sgn) := if ltb N x (lit N 0 0) then (opp N x, lit N (-1) 0) else (x, lit N 1 0) in
  let x := if leb N (lit N 2 0 * PI) x then nfmod N x (lit N 2 0 * PI) else x in
  let '(x, sgn) := if ltb N PI x then (lit N 628125 (-5) - x + p1, opp N sgn) else (x, sgn) in
  if eqb N x (lit N 0 0) then x else if eqb N x PI then lit N 0 0 else sgn * core x.
Definition cl_odd (PI p1 z : N) (core : N -> N) (x : N) : N :=
  let x := if ltb N x (lit N 0 0) then opp N x else x in
  let x := if leb N (lit N 2 0 * PI) x then nfmod N x (lit N 2 0 * PI) else x in
  let x := if ltb N PI x then lit N 628125 (-5) - x + p1 else x in
  if eqb N x (lit N 0 0) then z else core x.

Definition Cl2_d_p (y : N) : N :=
  let y2 := y * y in
  (aref N (Cl2_d_P N) 0) + y * (aref N (Cl2_d_P N) 1) + y2 * ((aref N (Cl2_d_P N) 2) + y * (aref N (Cl2_d_P N) 3)).
Definition Cl2_d_q (y : N) : N :=
  let y2 := y * y in
  (aref N (Cl2_d_Q N) 0) + y * (aref N (Cl2_d_Q N) 1) + y2 * ((aref N (Cl2_d_Q N) 2) + y * (aref N (Cl2_d_Q N) 3)).
Definition Cl2_d_p2 (z : N) : N :=
  let z2 := z * z in
  let z4 := z2 * z2 in
  (aref N (Cl2_d_P2 N) 0) + z * (aref N (Cl2_d_P2 N) 1) + z2 * ((aref N (Cl2_d_P2 N) 2) + z * (aref N (Cl2_d_P2 N) 3)) + z4 * ((aref N (Cl2_d_P2 N) 4) + z * (aref N (Cl2_d_P2 N) 5)).
Definition Cl2_d_q2 (z : N) : N :=
  let z2 := z * z in
  let z4 := z2 * z2 in
  (aref N (Cl2_d_Q2 N) 0) + z * (aref N (Cl2_d_Q2 N) 1) + z2 * ((aref N (Cl2_d_Q2 N) 2) + z * (aref N (Cl2_d_Q2 N) 3)) + z4 * ((aref N (Cl2_d_Q2 N) 4) + z * (aref N (Cl2_d_Q2 N) 5)).
Definition Cl2_d_core (x : N) : N :=
  let PI := PId in
  let PIH := PI / lit N 2 0 in
  let PI28 := PI * PI / lit N 8 0 in
  if ltb N x PIH then let y := x * x in let y2 := y * y in x * ((lit N 1 0) - (nlog N x) + y * Cl2_d_p y / Cl2_d_q y)
  else let y := PI - x in let z := y * y - PI28 in y * Cl2_d_p2 z / Cl2_d_q2 z.
Lemma Cl2_d_shape x : Cl2_d N x = cl_even PId p1d Cl2_d_core x.
Proof. reflexivity. Qed.

Definition Cl2_l_p (z : N) : N :=
  let z2 := z * z in
  let z4 := z2 * z2 in
  let z8 := z4 * z4 in
  (aref N (Cl2_l_P N) 0) + z * (aref N (Cl2_l_P N) 1) + z2 * ((aref N (Cl2_l_P N) 2) + z * (aref N (Cl2_l_P N) 3)) + z4 * ((aref N (Cl2_l_P N) 4) + z * (aref N (Cl2_l_P N) 5) + z2 * ((aref N (Cl2_l_P N) 6) + z * (aref N (Cl2_l_P N) 7))) + z8 * (aref N (Cl2_l_P N) 8).
Definition Cl2_l_q (z : N) : N :=
  let z2 := z * z in
  let z4 := z2 * z2 in
  let z8 := z4 * z4 in
  (aref N (Cl2_l_Q N) 0) + z * (aref N (Cl2_l_Q N) 1) + z2 * ((aref N (Cl2_l_Q N) 2) + z * (aref N (Cl2_l_Q N) 3)) + z4 * ((aref N (Cl2_l_Q N) 4) + z * (aref N (Cl2_l_Q N) 5) + z2 * ((aref N (Cl2_l_Q N) 6) + z * (aref N (Cl2_l_Q N) 7))) + z8 * (aref N (Cl2_l_Q N) 8).
Definition Cl2_l_p2 (z : N) : N :=
  let z2 := z * z in
  let z4 := z2 * z2 in
  let z8 := z4 * z4 in
  (aref N (Cl2_l_P2 N) 0) + z * (aref N (Cl2_l_P2 N) 1) + z2 * ((aref N (Cl2_l_P2 N) 2) + z * (aref N (Cl2_l_P2 N) 3)) + z4 * ((aref N (Cl2_l_P2 N) 4) + z * (aref N (Cl2_l_P2 N) 5) + z2 * ((aref N (Cl2_l_P2 N) 6) + z * (aref N (Cl2_l_P2 N) 7))) + z8 * ((aref N (Cl2_l_P2 N) 8) + z * (aref N (Cl2_l_P2 N) 9) + z2 * ((aref N (Cl2_l_P2 N) 10) + z * (aref N (Cl2_l_P2 N) 11)) + z4 * (aref N (Cl2_l_P2 N) 12)).
Definition Cl2_l_q2 (z : N) : N :=
  let z2 := z * z in
  let z4 := z2 * z2 in
  let z8 := z4 * z4 in
  (aref N (Cl2_l_Q2 N) 0) + z * (aref N (Cl2_l_Q2 N) 1) + z2 * ((aref N (Cl2_l_Q2 N) 2) + z * (aref N (Cl2_l_Q2 N) 3)) + z4 * ((aref N (Cl2_l_Q2 N) 4) + z * (aref N (Cl2_l_Q2 N) 5) + z2 * ((aref N (Cl2_l_Q2 N) 6) + z * (aref N (Cl2_l_Q2 N) 7))) + z8 * ((aref N (Cl2_l_Q2 N) 8) + z * (aref N (Cl2_l_Q2 N) 9) + z2 * ((aref N (Cl2_l_Q2 N) 10) + z * (aref N (Cl2_l_Q2 N) 11)) + z4 * (aref N (Cl2_l_Q2 N) 12)).
Definition Cl2_l_core (x : N) : N :=
  let PI := PIl in
  let PIH := PI / lit N 2 0 in
  let PI28 := PI * PI / lit N 8 0 in
  if ltb N x PIH then let y := x * x in let z := y - PI28 in x * ((lit N 1 0) - (nlog N x) + y * Cl2_l_p z / Cl2_l_q z)
  else let y := PI - x in let z := y * y - PI28 in y * Cl2_l_p2 z / Cl2_l_q2 z.
Lemma Cl2_l_shape x : Cl2_l N x = cl_even PIl p1l Cl2_l_core x.
Proof. reflexivity. Qed.

Definition Cl3_d_p (y : N) : N :=
  let y2 := y * y in
  (aref N (Cl3_d_P N) 0) + y * (aref N (Cl3_d_P N) 1) + y2 * ((aref N (Cl3_d_P N) 2) + y * (aref N (Cl3_d_P N) 3)).
Definition Cl3_d_q (y : N) : N :=
  let y2 := y * y in
  (aref N (Cl3_d_Q N) 0) + y * (aref N (Cl3_d_Q N) 1) + y2 * ((aref N (Cl3_d_Q N) 2) + y * (aref N (Cl3_d_Q N) 3)).
Definition Cl3_d_p2 (z : N) : N :=
  let z2 := z * z in
  let z4 := z2 * z2 in
  (aref N (Cl3_d_P2 N) 0) + z * (aref N (Cl3_d_P2 N) 1) + z2 * ((aref N (Cl3_d_P2 N) 2) + z * (aref N (Cl3_d_P2 N) 3)) + z4 * ((aref N (Cl3_d_P2 N) 4) + z * (aref N (Cl3_d_P2 N) 5)).
Definition Cl3_d_q2 (z : N) : N :=
  let z2 := z * z in
  let z4 := z2 * z2 in
  (aref N (Cl3_d_Q2 N) 0) + z * (aref N (Cl3_d_Q2 N) 1) + z2 * ((aref N (Cl3_d_Q2 N) 2) + z * (aref N (Cl3_d_Q2 N) 3)) + z4 * ((aref N (Cl3_d_Q2 N) 4) + z * (aref N (Cl3_d_Q2 N) 5)).
Definition Cl3_d_core (x : N) : N :=
  let PI := PId in
  let PIH := PI / lit N 2 0 in
  let PI28 := PI * PI / lit N 8 0 in
  let zeta3 := lit N 12020569031595943 (-16) in
  if ltb N x PIH then let y := x * x in let y2 := y * y in zeta3 + y * (Cl3_d_p y / Cl3_d_q y + (lit N 5 (-1)) * (nlog N x))
  else let y := PI - x in let z := y * y - PI28 in Cl3_d_p2 z / Cl3_d_q2 z.
Lemma Cl3_d_shape x : Cl3_d N x = cl_odd PId p1d (lit N 12020569031595943 (-16)) Cl3_d_core x.
Proof. reflexivity. Qed.

Definition Cl3_l_p (z : N) : N :=
  let z2 := z * z in
  let z4 := z2 * z2 in
  let z8 := z4 * z4 in
  (aref N (Cl3_l_P N) 0) + z * (aref N (Cl3_l_P N) 1) + z2 * ((aref N (Cl3_l_P N) 2) + z * (aref N (Cl3_l_P N) 3)) + z4 * ((aref N (Cl3_l_P N) 4) + z * (aref N (Cl3_l_P N) 5) + z2 * ((aref N (Cl3_l_P N) 6) + z * (aref N (Cl3_l_P N) 7))) + z8 * (aref N (Cl3_l_P N) 8).
Definition Cl3_l_q (z : N) : N :=
  let z2 := z * z in
  let z4 := z2 * z2 in
  let z8 := z4 * z4 in
  (aref N (Cl3_l_Q N) 0) + z * (aref N (Cl3_l_Q N) 1) + z2 * ((aref N (Cl3_l_Q N) 2) + z * (aref N (Cl3_l_Q N) 3)) + z4 * ((aref N (Cl3_l_Q N) 4) + z * (aref N (Cl3_l_Q N) 5) + z2 * ((aref N (Cl3_l_Q N) 6) + z * (aref N (Cl3_l_Q N) 7))) + z8 * (aref N (Cl3_l_Q N) 8).
Definition Cl3_l_p2 (z : N) : N :=
  let z2 := z * z in
  let z4 := z2 * z2 in
  let z8 := z4 * z4 in
  let z16 := z8 * z8 in
  (aref N (Cl3_l_P2 N) 0) + z * (aref N (Cl3_l_P2 N) 1) + z2 * ((aref N (Cl3_l_P2 N) 2) + z * (aref N (Cl3_l_P2 N) 3)) + z4 * ((aref N (Cl3_l_P2 N) 4) + z * (aref N (Cl3_l_P2 N) 5) + z2 * ((aref N (Cl3_l_P2 N) 6) + z * (aref N (Cl3_l_P2 N) 7))) + z8 * ((aref N (Cl3_l_P2 N) 8) + z * (aref N (Cl3_l_P2 N) 9) + z2 * ((aref N (Cl3_l_P2 N) 10) + z * (aref N (Cl3_l_P2 N) 11)) + z4 * ((aref N (Cl3_l_P2 N) 12) + z * (aref N (Cl3_l_P2 N) 13) + z2 * ((aref N (Cl3_l_P2 N) 14) + z * (aref N (Cl3_l_P2 N) 15)))) + z16 * ((aref N (Cl3_l_P2 N) 16) + z * (aref N (Cl3_l_P2 N) 17) + z2 * ((aref N (Cl3_l_P2 N) 18) + z * (aref N (Cl3_l_P2 N) 19)) + z4 * ((aref N (Cl3_l_P2 N) 20) + z * (aref N (Cl3_l_P2 N) 21) + z2 * (aref N (Cl3_l_P2 N) 22))).
Definition Cl3_l_q2 (z : N) : N :=
  let z2 := z * z in
  let z4 := z2 * z2 in
  let z8 := z4 * z4 in
  let z16 := z8 * z8 in
  (aref N (Cl3_l_Q2 N) 0) + z * (aref N (Cl3_l_Q2 N) 1) + z2 * ((aref N (Cl3_l_Q2 N) 2) + z * (aref N (Cl3_l_Q2 N) 3)) + z4 * ((aref N (Cl3_l_Q2 N) 4) + z * (aref N (Cl3_l_Q2 N) 5) + z2 * ((aref N (Cl3_l_Q2 N) 6) + z * (aref N (Cl3_l_Q2 N) 7))) + z8 * ((aref N (Cl3_l_Q2 N) 8) + z * (aref N (Cl3_l_Q2 N) 9) + z2 * ((aref N (Cl3_l_Q2 N) 10) + z * (aref N (Cl3_l_Q2 N) 11)) + z4 * ((aref N (Cl3_l_Q2 N) 12) + z * (aref N (Cl3_l_Q2 N) 13) + z2 * ((aref N (Cl3_l_Q2 N) 14) + z * (aref N (Cl3_l_Q2 N) 15)))) + z16 * ((aref N (Cl3_l_Q2 N) 16) + z * (aref N (Cl3_l_Q2 N) 17) + z2 * ((aref N (Cl3_l_Q2 N) 18) + z * (aref N (Cl3_l_Q2 N) 19)) + z4 * ((aref N (Cl3_l_Q2 N) 20) + z * (aref N (Cl3_l_Q2 N) 21) + z2 * (aref N (Cl3_l_Q2 N) 22))).
Definition Cl3_l_core (x : N) : N :=
  let PI := PIl in
  let PIH := PI / lit N 2 0 in
  let PI28 := PI * PI / lit N 8 0 in
  let zeta3 := lit N 12020569031595942853997381615114499908 (-37) in
  if ltb N x PIH then let y := x * x in let z := y - PI28 in zeta3 + y * (Cl3_l_p z / Cl3_l_q z + (lit N 5 (-1)) * (nlog N x))
  else let y := PI - x in let z := y * y - PI28 in Cl3_l_p2 z / Cl3_l_q2 z.
Lemma Cl3_l_shape x : Cl3_l N x = cl_odd PIl p1l (lit N 12020569031595942853997381615114499908 (-37)) Cl3_l_core x.
Proof. reflexivity. Qed.

Definition Cl4_d_p (y : N) : N :=
  let y2 := y * y in
  (aref N (Cl4_d_P N) 0) + y * (aref N (Cl4_d_P N) 1) + y2 * ((aref N (Cl4_d_P N) 2) + y * (aref N (Cl4_d_P N) 3)).
Definition Cl4_d_q (y : N) : N :=
  let y2 := y * y in
  (aref N (Cl4_d_Q N) 0) + y * (aref N (Cl4_d_Q N) 1) + y2 * ((aref N (Cl4_d_Q N) 2) + y * (aref N (Cl4_d_Q N) 3)).
Definition Cl4_d_p2 (z : N) : N :=
  let z2 := z * z in
  let z4 := z2 * z2 in
  (aref N (Cl4_d_P2 N) 0) + z * (aref N (Cl4_d_P2 N) 1) + z2 * ((aref N (Cl4_d_P2 N) 2) + z * (aref N (Cl4_d_P2 N) 3)) + z4 * ((aref N (Cl4_d_P2 N) 4) + z * (aref N (Cl4_d_P2 N) 5)).
Definition Cl4_d_q2 (z : N) : N :=
  let z2 := z * z in
  let z4 := z2 * z2 in
  (aref N (Cl4_d_Q2 N) 0) + z * (aref N (Cl4_d_Q2 N) 1) + z2 * ((aref N (Cl4_d_Q2 N) 2) + z * (aref N (Cl4_d_Q2 N) 3)) + z4 * ((aref N (Cl4_d_Q2 N) 4) + z * (aref N (Cl4_d_Q2 N) 5)).
Definition Cl4_d_core (x : N) : N :=
  let PI := PId in
  let PIH := PI / lit N 2 0 in
  let PI28 := PI * PI / lit N 8 0 in
  let zeta3 := lit N 12020569031595943 (-16) in
  if ltb N x PIH then let y := x * x in let y2 := y * y in x * (zeta3 + y * (Cl4_d_p y / Cl4_d_q y + (lit N 1 0) / (lit N 6 0) * (nlog N x)))
  else let y := PI - x in let z := y * y - PI28 in y * Cl4_d_p2 z / Cl4_d_q2 z.
Lemma Cl4_d_shape x : Cl4_d N x = cl_even PId p1d Cl4_d_core x.
Proof. reflexivity. Qed.

Definition Cl4_l_p (z : N) : N :=
  let z2 := z * z in
  let z4 := z2 * z2 in
  let z8 := z4 * z4 in
  (aref N (Cl4_l_P N) 0) + z * (aref N (Cl4_l_P N) 1) + z2 * ((aref N (Cl4_l_P N) 2) + z * (aref N (Cl4_l_P N) 3)) + z4 * ((aref N (Cl4_l_P N) 4) + z * (aref N (Cl4_l_P N) 5) + z2 * ((aref N (Cl4_l_P N) 6) + z * (aref N (Cl4_l_P N) 7))) + z8 * (aref N (Cl4_l_P N) 8).
Definition Cl4_l_q (z : N) : N :=
  let z2 := z * z in
  let z4 := z2 * z2 in
  let z8 := z4 * z4 in
  (aref N (Cl4_l_Q N) 0) + z * (aref N (Cl4_l_Q N) 1) + z2 * ((aref N (Cl4_l_Q N) 2) + z * (aref N (Cl4_l_Q N) 3)) + z4 * ((aref N (Cl4_l_Q N) 4) + z * (aref N (Cl4_l_Q N) 5) + z2 * ((aref N (Cl4_l_Q N) 6) + z * (aref N (Cl4_l_Q N) 7))) + z8 * (aref N (Cl4_l_Q N) 8).
Definition Cl4_l_p2 (z : N) : N :=
  let z2 := z * z in
  let z4 := z2 * z2 in
  let z8 := z4 * z4 in
  (aref N (Cl4_l_P2 N) 0) + z * (aref N (Cl4_l_P2 N) 1) + z2 * ((aref N (Cl4_l_P2 N) 2) + z * (aref N (Cl4_l_P2 N) 3)) + z4 * ((aref N (Cl4_l_P2 N) 4) + z * (aref N (Cl4_l_P2 N) 5) + z2 * ((aref N (Cl4_l_P2 N) 6) + z * (aref N (Cl4_l_P2 N) 7))) + z8 * ((aref N (Cl4_l_P2 N) 8) + z * (aref N (Cl4_l_P2 N) 9) + z2 * ((aref N (Cl4_l_P2 N) 10) + z * (aref N (Cl4_l_P2 N) 11)) + z4 * (aref N (Cl4_l_P2 N) 12)).
Definition Cl4_l_q2 (z : N) : N :=
  let z2 := z * z in
  let z4 := z2 * z2 in
  let z8 := z4 * z4 in
  (aref N (Cl4_l_Q2 N) 0) + z * (aref N (Cl4_l_Q2 N) 1) + z2 * ((aref N (Cl4_l_Q2 N) 2) + z * (aref N (Cl4_l_Q2 N) 3)) + z4 * ((aref N (Cl4_l_Q2 N) 4) + z * (aref N (Cl4_l_Q2 N) 5) + z2 * ((aref N (Cl4_l_Q2 N) 6) + z * (aref N (Cl4_l_Q2 N) 7))) + z8 * ((aref N (Cl4_l_Q2 N) 8) + z * (aref N (Cl4_l_Q2 N) 9) + z2 * ((aref N (Cl4_l_Q2 N) 10) + z * (aref N (Cl4_l_Q2 N) 11)) + z4 * (aref N (Cl4_l_Q2 N) 12)).
Definition Cl4_l_core (x : N) : N :=
  let PI := PIl in
  let PIH := PI / lit N 2 0 in
  let PI28 := PI * PI / lit N 8 0 in
  let zeta3 := lit N 12020569031595942853997381615114499908 (-37) in
  if ltb N x PIH then let y := x * x in let z := y - PI28 in x * (zeta3 + y * (Cl4_l_p z / Cl4_l_q z + (lit N 1 0) / (lit N 6 0) * (nlog N x)))
  else let y := PI - x in let z := y * y - PI28 in y * Cl4_l_p2 z / Cl4_l_q2 z.
Lemma Cl4_l_shape x : Cl4_l N x = cl_even PIl p1l Cl4_l_core x.
Proof. reflexivity. Qed.

Definition Cl5_d_p (y : N) : N :=
  let y2 := y * y in
  (aref N (Cl5_d_P N) 0) + y * (aref N (Cl5_d_P N) 1) + y2 * ((aref N (Cl5_d_P N) 2) + y * (aref N (Cl5_d_P N) 3)).
Definition Cl5_d_q (y : N) : N :=
  let y2 := y * y in
  (aref N (Cl5_d_Q N) 0) + y * (aref N (Cl5_d_Q N) 1) + y2 * ((aref N (Cl5_d_Q N) 2) + y * (aref N (Cl5_d_Q N) 3) + y2 * (aref N (Cl5_d_Q N) 4)).
Definition Cl5_d_p2 (z : N) : N :=
  let z2 := z * z in
  let z4 := z2 * z2 in
  (aref N (Cl5_d_P2 N) 0) + z * (aref N (Cl5_d_P2 N) 1) + z2 * ((aref N (Cl5_d_P2 N) 2) + z * (aref N (Cl5_d_P2 N) 3)) + z4 * ((aref N (Cl5_d_P2 N) 4) + z * (aref N (Cl5_d_P2 N) 5)).
Definition Cl5_d_q2 (z : N) : N :=
  let z2 := z * z in
  let z4 := z2 * z2 in
  (aref N (Cl5_d_Q2 N) 0) + z * (aref N (Cl5_d_Q2 N) 1) + z2 * ((aref N (Cl5_d_Q2 N) 2) + z * (aref N (Cl5_d_Q2 N) 3)) + z4 * ((aref N (Cl5_d_Q2 N) 4) + z * (aref N (Cl5_d_Q2 N) 5)).
Definition Cl5_d_core (x : N) : N :=
  let PI := PId in
  let PIH := PI / lit N 2 0 in
  let PI28 := PI * PI / lit N 8 0 in
  let zeta5 := lit N 10369277551433699 (-16) in
  if ltb N x PIH then let y := x * x in let y2 := y * y in Cl5_d_p y / Cl5_d_q y - (lit N 1 0) / (lit N 24 0) * y2 * (nlog N x)
  else let y := PI - x in let z := y * y - PI28 in Cl5_d_p2 z / Cl5_d_q2 z.
Lemma Cl5_d_shape x : Cl5_d N x = cl_odd PId p1d (lit N 10369277551433699 (-16)) Cl5_d_core x.
Proof. reflexivity. Qed.

Definition Cl5_l_p (y : N) : N :=
  let y2 := y * y in
  let y4 := y2 * y2 in
  let y8 := y4 * y4 in
  (aref N (Cl5_l_P N) 0) + y * (aref N (Cl5_l_P N) 1) + y2 * ((aref N (Cl5_l_P N) 2) + y * (aref N (Cl5_l_P N) 3)) + y4 * ((aref N (Cl5_l_P N) 4) + y * (aref N (Cl5_l_P N) 5) + y2 * ((aref N (Cl5_l_P N) 6) + y * (aref N (Cl5_l_P N) 7))) + y8 * (aref N (Cl5_l_P N) 8).
Definition Cl5_l_q (y : N) : N :=
  let y2 := y * y in
  let y4 := y2 * y2 in
  let y8 := y4 * y4 in
  (aref N (Cl5_l_Q N) 0) + y * (aref N (Cl5_l_Q N) 1) + y2 * ((aref N (Cl5_l_Q N) 2) + y * (aref N (Cl5_l_Q N) 3)) + y4 * ((aref N (Cl5_l_Q N) 4) + y * (aref N (Cl5_l_Q N) 5) + y2 * ((aref N (Cl5_l_Q N) 6) + y * (aref N (Cl5_l_Q N) 7))) + y8 * (aref N (Cl5_l_Q N) 8).
Definition Cl5_l_p2 (z : N) : N :=
  let z2 := z * z in
  let z4 := z2 * z2 in
  let z8 := z4 * z4 in
  let z16 := z8 * z8 in
  (aref N (Cl5_l_P2 N) 0) + z * (aref N (Cl5_l_P2 N) 1) + z2 * ((aref N (Cl5_l_P2 N) 2) + z * (aref N (Cl5_l_P2 N) 3)) + z4 * ((aref N (Cl5_l_P2 N) 4) + z * (aref N (Cl5_l_P2 N) 5) + z2 * ((aref N (Cl5_l_P2 N) 6) + z * (aref N (Cl5_l_P2 N) 7))) + z8 * ((aref N (Cl5_l_P2 N) 8) + z * (aref N (Cl5_l_P2 N) 9) + z2 * ((aref N (Cl5_l_P2 N) 10) + z * (aref N (Cl5_l_P2 N) 11)) + z4 * ((aref N (Cl5_l_P2 N) 12) + z * (aref N (Cl5_l_P2 N) 13) + z2 * ((aref N (Cl5_l_P2 N) 14) + z * (aref N (Cl5_l_P2 N) 15)))) + z16 * ((aref N (Cl5_l_P2 N) 16) + z * (aref N (Cl5_l_P2 N) 17) + z2 * ((aref N (Cl5_l_P2 N) 18) + z * (aref N (Cl5_l_P2 N) 19)) + z4 * ((aref N (Cl5_l_P2 N) 20) + z * (aref N (Cl5_l_P2 N) 21))).
Definition Cl5_l_q2 (z : N) : N :=
  let z2 := z * z in
  let z4 := z2 * z2 in
  let z8 := z4 * z4 in
  let z16 := z8 * z8 in
  (aref N (Cl5_l_Q2 N) 0) + z * (aref N (Cl5_l_Q2 N) 1) + z2 * ((aref N (Cl5_l_Q2 N) 2) + z * (aref N (Cl5_l_Q2 N) 3)) + z4 * ((aref N (Cl5_l_Q2 N) 4) + z * (aref N (Cl5_l_Q2 N) 5) + z2 * ((aref N (Cl5_l_Q2 N) 6) + z * (aref N (Cl5_l_Q2 N) 7))) + z8 * ((aref N (Cl5_l_Q2 N) 8) + z * (aref N (Cl5_l_Q2 N) 9) + z2 * ((aref N (Cl5_l_Q2 N) 10) + z * (aref N (Cl5_l_Q2 N) 11)) + z4 * ((aref N (Cl5_l_Q2 N) 12) + z * (aref N (Cl5_l_Q2 N) 13) + z2 * ((aref N (Cl5_l_Q2 N) 14) + z * (aref N (Cl5_l_Q2 N) 15)))) + z16 * ((aref N (Cl5_l_Q2 N) 16) + z * (aref N (Cl5_l_Q2 N) 17) + z2 * ((aref N (Cl5_l_Q2 N) 18) + z * (aref N (Cl5_l_Q2 N) 19)) + z4 * ((aref N (Cl5_l_Q2 N) 20) + z * (aref N (Cl5_l_Q2 N) 21))).
Definition Cl5_l_core (x : N) : N :=
  let PI := PIl in
  let PIH := PI / lit N 2 0 in
  let PI28 := PI * PI / lit N 8 0 in
  let zeta5 := lit N 1036927755143369926331365486457034168057 (-39) in
  if ltb N x PIH then let y := x * x in let y2 := y * y in Cl5_l_p y / Cl5_l_q y - (lit N 1 0) / (lit N 24 0) * y2 * (nlog N x)
  else let y := PI - x in let z := y * y - PI28 in Cl5_l_p2 z / Cl5_l_q2 z.
Lemma Cl5_l_shape x : Cl5_l N x = cl_odd PIl p1l (lit N 1036927755143369926331365486457034168057 (-39)) Cl5_l_core x.
Proof. reflexivity. Qed.

Definition Cl6_d_p (y : N) : N :=
  let y2 := y * y in
  (aref N (Cl6_d_P N) 0) + y * (aref N (Cl6_d_P N) 1) + y2 * ((aref N (Cl6_d_P N) 2) + y * (aref N (Cl6_d_P N) 3)).
Definition Cl6_d_q (y : N) : N :=
  let y2 := y * y in
  (aref N (Cl6_d_Q N) 0) + y * (aref N (Cl6_d_Q N) 1) + y2 * ((aref N (Cl6_d_Q N) 2) + y * (aref N (Cl6_d_Q N) 3)).
Definition Cl6_d_p2 (z : N) : N :=
  let z2 := z * z in
  let z4 := z2 * z2 in
  (aref N (Cl6_d_P2 N) 0) + z * (aref N (Cl6_d_P2 N) 1) + z2 * ((aref N (Cl6_d_P2 N) 2) + z * (aref N (Cl6_d_P2 N) 3)) + z4 * (aref N (Cl6_d_P2 N) 4).
Definition Cl6_d_q2 (z : N) : N :=
  let z2 := z * z in
  let z4 := z2 * z2 in
  (aref N (Cl6_d_Q2 N) 0) + z * (aref N (Cl6_d_Q2 N) 1) + z2 * ((aref N (Cl6_d_Q2 N) 2) + z * (aref N (Cl6_d_Q2 N) 3)) + z4 * ((aref N (Cl6_d_Q2 N) 4) + z * (aref N (Cl6_d_Q2 N) 5)).
Definition Cl6_d_core (x : N) : N :=
  let PI := PId in
  let PIH := PI / lit N 2 0 in
  let PI28 := PI * PI / lit N 8 0 in
  if ltb N x PIH then let y := x * x in let y2 := y * y in x * (Cl6_d_p y / Cl6_d_q y - (lit N 1 0) / (lit N 120 0) * y2 * (nlog N x))
  else let y := PI - x in let z := y * y - PI28 in y * Cl6_d_p2 z / Cl6_d_q2 z.
Lemma Cl6_d_shape x : Cl6_d N x = cl_even PId p1d Cl6_d_core x.
Proof. reflexivity. Qed.

Definition Cl6_l_p (y : N) : N :=
  let y2 := y * y in
  let y4 := y2 * y2 in
  let y8 := y4 * y4 in
  (aref N (Cl6_l_P N) 0) + y * (aref N (Cl6_l_P N) 1) + y2 * ((aref N (Cl6_l_P N) 2) + y * (aref N (Cl6_l_P N) 3)) + y4 * ((aref N (Cl6_l_P N) 4) + y * (aref N (Cl6_l_P N) 5) + y2 * ((aref N (Cl6_l_P N) 6) + y * (aref N (Cl6_l_P N) 7))).
Definition Cl6_l_q (y : N) : N :=
  let y2 := y * y in
  let y4 := y2 * y2 in
  let y8 := y4 * y4 in
  (aref N (Cl6_l_Q N) 0) + y * (aref N (Cl6_l_Q N) 1) + y2 * ((aref N (Cl6_l_Q N) 2) + y * (aref N (Cl6_l_Q N) 3)) + y4 * ((aref N (Cl6_l_Q N) 4) + y * (aref N (Cl6_l_Q N) 5) + y2 * ((aref N (Cl6_l_Q N) 6) + y * (aref N (Cl6_l_Q N) 7))) + y8 * (aref N (Cl6_l_Q N) 8).
Definition Cl6_l_p2 (z : N) : N :=
  let z2 := z * z in
  let z4 := z2 * z2 in
  let z8 := z4 * z4 in
  let z16 := z8 * z8 in
  (aref N (Cl6_l_P2 N) 0) + z * (aref N (Cl6_l_P2 N) 1) + z2 * ((aref N (Cl6_l_P2 N) 2) + z * (aref N (Cl6_l_P2 N) 3)) + z4 * ((aref N (Cl6_l_P2 N) 4) + z * (aref N (Cl6_l_P2 N) 5) + z2 * ((aref N (Cl6_l_P2 N) 6) + z * (aref N (Cl6_l_P2 N) 7))) + z8 * ((aref N (Cl6_l_P2 N) 8) + z * (aref N (Cl6_l_P2 N) 9) + z2 * ((aref N (Cl6_l_P2 N) 10) + z * (aref N (Cl6_l_P2 N) 11)) + z4 * ((aref N (Cl6_l_P2 N) 12) + z * (aref N (Cl6_l_P2 N) 13) + z2 * ((aref N (Cl6_l_P2 N) 14) + z * (aref N (Cl6_l_P2 N) 15)))) + z16 * ((aref N (Cl6_l_P2 N) 16) + z * (aref N (Cl6_l_P2 N) 17) + z2 * ((aref N (Cl6_l_P2 N) 18) + z * (aref N (Cl6_l_P2 N) 19)) + z4 * ((aref N (Cl6_l_P2 N) 20) + z * (aref N (Cl6_l_P2 N) 21) + z2 * (aref N (Cl6_l_P2 N) 22))).
Definition Cl6_l_q2 (z : N) : N :=
  let z2 := z * z in
  let z4 := z2 * z2 in
  let z8 := z4 * z4 in
  let z16 := z8 * z8 in
  (aref N (Cl6_l_Q2 N) 0) + z * (aref N (Cl6_l_Q2 N) 1) + z2 * ((aref N (Cl6_l_Q2 N) 2) + z * (aref N (Cl6_l_Q2 N) 3)) + z4 * ((aref N (Cl6_l_Q2 N) 4) + z * (aref N (Cl6_l_Q2 N) 5) + z2 * ((aref N (Cl6_l_Q2 N) 6) + z * (aref N (Cl6_l_Q2 N) 7))) + z8 * ((aref N (Cl6_l_Q2 N) 8) + z * (aref N (Cl6_l_Q2 N) 9) + z2 * ((aref N (Cl6_l_Q2 N) 10) + z * (aref N (Cl6_l_Q2 N) 11)) + z4 * ((aref N (Cl6_l_Q2 N) 12) + z * (aref N (Cl6_l_Q2 N) 13) + z2 * ((aref N (Cl6_l_Q2 N) 14) + z * (aref N (Cl6_l_Q2 N) 15)))) + z16 * ((aref N (Cl6_l_Q2 N) 16) + z * (aref N (Cl6_l_Q2 N) 17) + z2 * ((aref N (Cl6_l_Q2 N) 18) + z * (aref N (Cl6_l_Q2 N) 19)) + z4 * ((aref N (Cl6_l_Q2 N) 20) + z * (aref N (Cl6_l_Q2 N) 21) + z2 * (aref N (Cl6_l_Q2 N) 22))).
Definition Cl6_l_core (x : N) : N :=
  let PI := PIl in
  let PIH := PI / lit N 2 0 in
  let PI28 := PI * PI / lit N 8 0 in
  if ltb N x PIH then let y := x * x in let y2 := y * y in x * (Cl6_l_p y / Cl6_l_q y - (lit N 1 0) / (lit N 120 0) * y2 * (nlog N x))
  else let y := PI - x in let z := y * y - PI28 in y * Cl6_l_p2 z / Cl6_l_q2 z.
Lemma Cl6_l_shape x : Cl6_l N x = cl_even PIl p1l Cl6_l_core x.
Proof. reflexivity. Qed.

End M.
