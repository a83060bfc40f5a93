(** * Model of the Fortran interface (src/fortran)

    Transcribed from the Fortran sources by tools/gen_f.py (with Fortran precedence: a
    leading minus applies to the whole first term); every definition cites the lines it models.
    A Fortran function receives its argument by reference, so every model function returns the
    pair (function value, value left in the caller's argument variable).  [f_x] is the pair,
    and callees inside an expression are applied to the current value of their argument: the
    only callees that assign to their argument are dli4 and the Clausen functions, and the one such
    call in the code (dli4(rz) in cdli4) is to a local variable that is not read afterwards.
    Simplifications: complex multiplication and division are the textbook formulas, a**2 is a*a,
    a**3 is a*a*a, integer constants are converted to floating point, constants of PARAMETER
    statements are evaluated in the same arithmetic as the rest. A local that may be read before it is
    set ([cdli2] for a NaN) starts from the extra argument [undef]. *)
From Coq Require Import ZArith List Bool.
From Verif Require Import Num.
Import ListNotations.
Local Open Scope Z_scope.

Section M.
Variable N : num.
Local Notation "x + y" := (add N x y).
Local Notation "x - y" := (sub N x y).
Local Notation "x * y" := (mul N x y).
Local Notation "x / y" := (div N x y).
Local Notation aref N c i := (Num.aref N c i%nat).

(* src/fortran/Cl2.f90:20  array cp(4) *)
Definition f_dcl2_cp : list N := [
   lit N 13888888888888889 (-18);
   lit N (-43286930203743071) (-20);
   lit N 32779814789973427 (-22);
   lit N (-36001540369575084) (-25)
].

(* src/fortran/Cl2.f90:25  array cq(4) *)
Definition f_dcl2_cq : list N := [
   lit N 1 0;
   lit N (-36166589746694121) (-18);
   lit N 36015827281202639 (-20);
   lit N (-83646182842184428) (-23)
].

(* src/fortran/Cl2.f90:30  array cr(6) *)
Definition f_dcl2_cr : list N := [
   lit N 64005702446195512 (-17);
   lit N (-20641655351338783) (-17);
   lit N 24175305223497718 (-18);
   lit N (-12355955287855728) (-19);
   lit N 25649833551291124 (-21);
   lit N (-1478382912877332) (-22)
].

(* src/fortran/Cl2.f90:37  array cs(6) *)
Definition f_dcl2_cs : list N := [
   lit N 1 0;
   lit N (-25299102015666356) (-17);
   lit N 22148751048467057 (-18);
   lit N (-78183920462457496) (-20);
   lit N 9543254219631067 (-21);
   lit N (-18184302880448247) (-24)
].

(* src/fortran/Cl2.f90:15-85 *)
Definition f_dcl2 (x : car N) : car N * car N :=
  let PI := lit N 314159265358979324 (-17) in
  let PI2 := (lit N 2 0) * PI in
  let PIH := PI / (lit N 2 0) in
  let PI28 := PI * PI / (lit N 8 0) in
  let sgn := lit N 1 0 in
  let '(x, sgn) :=
    if ltb N x (lit N 0 0) then
      let x := opp N x in
      let sgn := lit N (-1) 0 in
      (x, sgn)
    else
      (x, sgn) in
  let x :=
    if leb N PI2 x then
      let x := nfmod N x PI2 in
      x
    else
      x in
  let '(x, sgn) :=
    if ltb N PI x then
      let p0 := lit N 628125 (-5) in
      let p1 := lit N 19353071795864769253 (-22) in
      let x := p0 - x + p1 in
      let sgn := opp N sgn in
      (x, sgn)
    else
      (x, sgn) in
  if eqb N x (lit N 0 0) then
    let dcl2 := x in
    (dcl2, x)
  else if eqb N x PI then
    let dcl2 := lit N 0 0 in
    (dcl2, x)
  else if ltb N x PIH then
    let y := x * x in
    let z := y * y in
    let p := (aref N f_dcl2_cp 0) + y * (aref N f_dcl2_cp 1) + z * ((aref N f_dcl2_cp 2) + y * (aref N f_dcl2_cp 3)) in
    let q := (aref N f_dcl2_cq 0) + y * (aref N f_dcl2_cq 1) + z * ((aref N f_dcl2_cq 2) + y * (aref N f_dcl2_cq 3)) in
    let dcl2 := sgn * x * ((lit N 1 0) - (nlog N x) + y * p / q) in
    (dcl2, x)
  else
    let y := PI - x in
    let z := y * y - PI28 in
    let z2 := z * z in
    let z4 := z2 * z2 in
    let p := (aref N f_dcl2_cr 0) + z * (aref N f_dcl2_cr 1) + z2 * ((aref N f_dcl2_cr 2) + z * (aref N f_dcl2_cr 3)) + z4 * ((aref N f_dcl2_cr 4) + z * (aref N f_dcl2_cr 5)) in
    let q := (aref N f_dcl2_cs 0) + z * (aref N f_dcl2_cs 1) + z2 * ((aref N f_dcl2_cs 2) + z * (aref N f_dcl2_cs 3)) + z4 * ((aref N f_dcl2_cs 4) + z * (aref N f_dcl2_cs 5)) in
    let dcl2 := sgn * y * p / q in
    (dcl2, x).

(* src/fortran/Cl3.f90:21  array cp(4) *)
Definition f_dcl3_cp : list N := [
   lit N (-75000000000000001) (-17);
   lit N 15707637881835541 (-18);
   lit N (-35426736843494423) (-21);
   lit N (-24408931585123682) (-23)
].

(* src/fortran/Cl3.f90:26  array cq(4) *)
Definition f_dcl3_cq : list N := [
   lit N 1 0;
   lit N (-25573146805410089) (-18);
   lit N 1501977485307505 (-19);
   lit N (-10648552418111624) (-23)
].

(* src/fortran/Cl3.f90:31  array cr(6) *)
Definition f_dcl3_cr : list N := [
   lit N (-49017024647634973) (-17);
   lit N 4155915522466094 (-16);
   lit N (-79425531417806701) (-18);
   lit N 59420152260602943 (-19);
   lit N (-1830222716354019) (-19);
   lit N 18027408929418533 (-22)
].

(* src/fortran/Cl3.f90:38  array cs(6) *)
Definition f_dcl3_cs : list N := [
   lit N 1 0;
   lit N (-19495887541644712) (-17);
   lit N 12059410236484074 (-18);
   lit N (-2523588946730162) (-19);
   lit N 10199322763377861 (-22);
   lit N 19612106499469264 (-25)
].

(* src/fortran/Cl3.f90:15-80 *)
Definition f_dcl3 (x : car N) : car N * car N :=
  let PI := lit N 314159265358979324 (-17) in
  let PI2 := (lit N 2 0) * PI in
  let PIH := PI / (lit N 2 0) in
  let PI28 := PI * PI / (lit N 8 0) in
  let zeta3 := lit N 12020569031595943 (-16) in
  let x :=
    if ltb N x (lit N 0 0) then
      let x := opp N x in
      x
    else
      x in
  let x :=
    if leb N PI2 x then
      let x := nfmod N x PI2 in
      x
    else
      x in
  let x :=
    if ltb N PI x then
      let p0 := lit N 628125 (-5) in
      let p1 := lit N 19353071795864769253 (-22) in
      let x := p0 - x + p1 in
      x
    else
      x in
  if eqb N x (lit N 0 0) then
    let dcl3 := zeta3 in
    (dcl3, x)
  else if ltb N x PIH then
    let y := x * x in
    let z := y * y in
    let p := (aref N f_dcl3_cp 0) + y * (aref N f_dcl3_cp 1) + z * ((aref N f_dcl3_cp 2) + y * (aref N f_dcl3_cp 3)) in
    let q := (aref N f_dcl3_cq 0) + y * (aref N f_dcl3_cq 1) + z * ((aref N f_dcl3_cq 2) + y * (aref N f_dcl3_cq 3)) in
    let dcl3 := zeta3 + y * (p / q + (nlog N x) / (lit N 2 0)) in
    (dcl3, x)
  else
    let y := PI - x in
    let z := y * y - PI28 in
    let z2 := z * z in
    let z4 := z2 * z2 in
    let p := (aref N f_dcl3_cr 0) + z * (aref N f_dcl3_cr 1) + z2 * ((aref N f_dcl3_cr 2) + z * (aref N f_dcl3_cr 3)) + z4 * ((aref N f_dcl3_cr 4) + z * (aref N f_dcl3_cr 5)) in
    let q := (aref N f_dcl3_cs 0) + z * (aref N f_dcl3_cs 1) + z2 * ((aref N f_dcl3_cs 2) + z * (aref N f_dcl3_cs 3)) + z4 * ((aref N f_dcl3_cs 4) + z * (aref N f_dcl3_cs 5)) in
    let dcl3 := p / q in
    (dcl3, x).

(* src/fortran/Cl4.f90:21  array cp(4) *)
Definition f_dcl4_cp : list N := [
   lit N (-30555555555555556) (-17);
   lit N 60521392328447206 (-19);
   lit N (-19587493942041528) (-21);
   lit N (-31137343767030358) (-24)
].

(* src/fortran/Cl4.f90:26  array cq(4) *)
Definition f_dcl4_cq : list N := [
   lit N 1 0;
   lit N (-22079728398400851) (-18);
   lit N 10887447112236682 (-20);
   lit N (-61847621370547954) (-24)
].

(* src/fortran/Cl4.f90:31  array cr(6) *)
Definition f_dcl4_cr : list N := [
   lit N 76223911686491336 (-17);
   lit N (-2433958736826726) (-16);
   lit N 28715364937979943 (-18);
   lit N (-15368612510964667) (-19);
   lit N 36261044225761673 (-21);
   lit N (-28557977333851308) (-23)
].

(* src/fortran/Cl4.f90:38  array cs(6) *)
Definition f_dcl4_cs : list N := [
   lit N 1 0;
   lit N (-17465715261403233) (-17);
   lit N 95439417991615653 (-19);
   lit N (-17325070821666274) (-20);
   lit N 59283675098376635 (-23);
   lit N 9412757577336123 (-25)
].

(* src/fortran/Cl4.f90:15-86 *)
Definition f_dcl4 (x : car N) : car N * car N :=
  let PI := lit N 314159265358979324 (-17) in
  let PI2 := (lit N 2 0) * PI in
  let PIH := PI / (lit N 2 0) in
  let PI28 := PI * PI / (lit N 8 0) in
  let zeta3 := lit N 12020569031595943 (-16) in
  let sgn := lit N 1 0 in
  let '(x, sgn) :=
    if ltb N x (lit N 0 0) then
      let x := opp N x in
      let sgn := lit N (-1) 0 in
      (x, sgn)
    else
      (x, sgn) in
  let x :=
    if leb N PI2 x then
      let x := nfmod N x PI2 in
      x
    else
      x in
  let '(x, sgn) :=
    if ltb N PI x then
      let p0 := lit N 628125 (-5) in
      let p1 := lit N 19353071795864769253 (-22) in
      let x := p0 - x + p1 in
      let sgn := opp N sgn in
      (x, sgn)
    else
      (x, sgn) in
  if eqb N x (lit N 0 0) then
    let dcl4 := x in
    (dcl4, x)
  else if eqb N x PI then
    let dcl4 := lit N 0 0 in
    (dcl4, x)
  else if ltb N x PIH then
    let y := x * x in
    let z := y * y in
    let p := (aref N f_dcl4_cp 0) + y * (aref N f_dcl4_cp 1) + z * ((aref N f_dcl4_cp 2) + y * (aref N f_dcl4_cp 3)) in
    let q := (aref N f_dcl4_cq 0) + y * (aref N f_dcl4_cq 1) + z * ((aref N f_dcl4_cq 2) + y * (aref N f_dcl4_cq 3)) in
    let dcl4 := sgn * x * (zeta3 + y * (p / q + (nlog N x) / (lit N 6 0))) in
    (dcl4, x)
  else
    let y := PI - x in
    let z := y * y - PI28 in
    let z2 := z * z in
    let z4 := z2 * z2 in
    let p := (aref N f_dcl4_cr 0) + z * (aref N f_dcl4_cr 1) + z2 * ((aref N f_dcl4_cr 2) + z * (aref N f_dcl4_cr 3)) + z4 * ((aref N f_dcl4_cr 4) + z * (aref N f_dcl4_cr 5)) in
    let q := (aref N f_dcl4_cs 0) + z * (aref N f_dcl4_cs 1) + z2 * ((aref N f_dcl4_cs 2) + z * (aref N f_dcl4_cs 3)) + z4 * ((aref N f_dcl4_cs 4) + z * (aref N f_dcl4_cs 5)) in
    let dcl4 := sgn * y * p / q in
    (dcl4, x).

(* src/fortran/Cl5.f90:21  array cp(4) *)
Definition f_dcl5_cp : list N := [
   lit N 10369277551433699 (-16);
   lit N (-61354800479984468) (-17);
   lit N 94076401395712763 (-18);
   lit N (-94056155866704436) (-20)
].

(* src/fortran/Cl5.f90:26  array cq(5) *)
Definition f_dcl5_cq : list N := [
   lit N 1 0;
   lit N (-12073698633244778) (-18);
   lit N 13703409625482991 (-21);
   lit N (-19701280330628469) (-25);
   lit N 219445501844165 (-25)
].

(* src/fortran/Cl5.f90:32  array cr(6) *)
Definition f_dcl5_cr : list N := [
   lit N (-45930112735784898) (-17);
   lit N 43720705508867954 (-17);
   lit N (-75895226486465095) (-18);
   lit N 52244176912488065 (-19);
   lit N (-15677716622013956) (-20);
   lit N 16641624171748576 (-22)
].

(* src/fortran/Cl5.f90:39  array cs(6) *)
Definition f_dcl5_cs : list N := [
   lit N 1 0;
   lit N (-12211486825401188) (-17);
   lit N 3894007074931362 (-18);
   lit N (-22674805547074318) (-21);
   lit N (-74383354448335299) (-24);
   lit N (-34131758392216437) (-26)
].

(* src/fortran/Cl5.f90:15-81 *)
Definition f_dcl5 (x : car N) : car N * car N :=
  let PI := lit N 314159265358979324 (-17) in
  let PI2 := (lit N 2 0) * PI in
  let PIH := PI / (lit N 2 0) in
  let PI28 := PI * PI / (lit N 8 0) in
  let zeta5 := lit N 10369277551433699 (-16) in
  let x :=
    if ltb N x (lit N 0 0) then
      let x := opp N x in
      x
    else
      x in
  let x :=
    if leb N PI2 x then
      let x := nfmod N x PI2 in
      x
    else
      x in
  let x :=
    if ltb N PI x then
      let p0 := lit N 628125 (-5) in
      let p1 := lit N 19353071795864769253 (-22) in
      let x := p0 - x + p1 in
      x
    else
      x in
  if eqb N x (lit N 0 0) then
    let dcl5 := zeta5 in
    (dcl5, x)
  else if ltb N x PIH then
    let y := x * x in
    let z := y * y in
    let p := (aref N f_dcl5_cp 0) + y * (aref N f_dcl5_cp 1) + z * ((aref N f_dcl5_cp 2) + y * (aref N f_dcl5_cp 3)) in
    let q := (aref N f_dcl5_cq 0) + y * (aref N f_dcl5_cq 1) + z * ((aref N f_dcl5_cq 2) + y * (aref N f_dcl5_cq 3) + z * (aref N f_dcl5_cq 4)) in
    let dcl5 := p / q - (lit N 1 0) / (lit N 24 0) * z * (nlog N x) in
    (dcl5, x)
  else
    let y := PI - x in
    let z := y * y - PI28 in
    let z2 := z * z in
    let z4 := z2 * z2 in
    let p := (aref N f_dcl5_cr 0) + z * (aref N f_dcl5_cr 1) + z2 * ((aref N f_dcl5_cr 2) + z * (aref N f_dcl5_cr 3)) + z4 * ((aref N f_dcl5_cr 4) + z * (aref N f_dcl5_cr 5)) in
    let q := (aref N f_dcl5_cs 0) + z * (aref N f_dcl5_cs 1) + z2 * ((aref N f_dcl5_cs 2) + z * (aref N f_dcl5_cs 3)) + z4 * ((aref N f_dcl5_cs 4) + z * (aref N f_dcl5_cs 5)) in
    let dcl5 := p / q in
    (dcl5, x).

(* src/fortran/Cl6.f90:21  array cp(4) *)
Definition f_dcl6_cp : list N := [
   lit N 10369277551433699 (-16);
   lit N (-2087195444107175) (-16);
   lit N 20652251045312954 (-18);
   lit N (-138343813825684) (-18)
].

(* src/fortran/Cl6.f90:26  array cq(4) *)
Definition f_dcl6_cq : list N := [
   lit N 1 0;
   lit N (-80784096827362542) (-19);
   lit N 58074568862993102 (-22);
   lit N (-51960620033050114) (-26)
].

(* src/fortran/Cl6.f90:31  array cr(5) *)
Definition f_dcl6_cr : list N := [
   lit N 7954450457802705 (-16);
   lit N (-19255025309738589) (-17);
   lit N 15805208288846591 (-18);
   lit N (-54175380521534706) (-20);
   lit N 67577493541009068 (-22)
].

(* src/fortran/Cl6.f90:37  array cs(6) *)
Definition f_dcl6_cs : list N := [
   lit N 1 0;
   lit N (-70798422394109274) (-18);
   lit N 71744189715634762 (-20);
   lit N 39098747334347093 (-22);
   lit N 35669441618295266 (-24);
   lit N 25315391843409925 (-26)
].

(* src/fortran/Cl6.f90:15-85 *)
Definition f_dcl6 (x : car N) : car N * car N :=
  let PI := lit N 314159265358979324 (-17) in
  let PI2 := (lit N 2 0) * PI in
  let PIH := PI / (lit N 2 0) in
  let PI28 := PI * PI / (lit N 8 0) in
  let sgn := lit N 1 0 in
  let '(x, sgn) :=
    if ltb N x (lit N 0 0) then
      let x := opp N x in
      let sgn := lit N (-1) 0 in
      (x, sgn)
    else
      (x, sgn) in
  let x :=
    if leb N PI2 x then
      let x := nfmod N x PI2 in
      x
    else
      x in
  let '(x, sgn) :=
    if ltb N PI x then
      let p0 := lit N 628125 (-5) in
      let p1 := lit N 19353071795864769253 (-22) in
      let x := p0 - x + p1 in
      let sgn := opp N sgn in
      (x, sgn)
    else
      (x, sgn) in
  if eqb N x (lit N 0 0) then
    let dcl6 := x in
    (dcl6, x)
  else if eqb N x PI then
    let dcl6 := lit N 0 0 in
    (dcl6, x)
  else if ltb N x PIH then
    let y := x * x in
    let z := y * y in
    let p := (aref N f_dcl6_cp 0) + y * (aref N f_dcl6_cp 1) + z * ((aref N f_dcl6_cp 2) + y * (aref N f_dcl6_cp 3)) in
    let q := (aref N f_dcl6_cq 0) + y * (aref N f_dcl6_cq 1) + z * ((aref N f_dcl6_cq 2) + y * (aref N f_dcl6_cq 3)) in
    let dcl6 := sgn * x * (p / q - (lit N 1 0) / (lit N 120 0) * z * (nlog N x)) in
    (dcl6, x)
  else
    let y := PI - x in
    let z := y * y - PI28 in
    let z2 := z * z in
    let z4 := z2 * z2 in
    let p := (aref N f_dcl6_cr 0) + z * (aref N f_dcl6_cr 1) + z2 * ((aref N f_dcl6_cr 2) + z * (aref N f_dcl6_cr 3)) + z4 * (aref N f_dcl6_cr 4) in
    let q := (aref N f_dcl6_cs 0) + z * (aref N f_dcl6_cs 1) + z2 * ((aref N f_dcl6_cs 2) + z * (aref N f_dcl6_cs 3)) + z4 * ((aref N f_dcl6_cs 4) + z * (aref N f_dcl6_cs 5)) in
    let dcl6 := sgn * y * p / q in
    (dcl6, x).

(* src/fortran/log.f90:13-30 *)
Definition f_cdlog1p (z : cpx N) : cpx N * cpx N :=
  let u := cadd_rc N (lit N 1 0) z in
  let re := fst u in
  let im := snd u in
  if (eqb N re (lit N 1 0) && eqb N im (lit N 0 0)) then
    let cdlog1p := z in
    (cdlog1p, z)
  else if leb N re (lit N 0 0) then
    let cdlog1p := clog N u in
    (cdlog1p, z)
  else
    let cdlog1p := cmul N (clog N u) (cdiv N z (csub_cr N u (lit N 1 0))) in
    (cdlog1p, z).

(* src/fortran/log.f90:40-56 *)
Definition f_pos_cdlog (z : cpx N) : cpx N * cpx N :=
  let re := fst z in
  let im := snd z in
  if (eqb N im (lit N 0 0) && ltb N (lit N 0 0) re) then
    let pos_cdlog := (nlog N re, lit N 0 0) in
    (pos_cdlog, z)
  else if eqb N im (lit N 0 0) then
    let pos_cdlog := (nlog N (opp N re), lit N 314159265358979324 (-17)) in
    (pos_cdlog, z)
  else
    let pos_cdlog := clog N z in
    (pos_cdlog, z).

(* src/fortran/Li2.f90:23  array cp(6) *)
Definition f_dli2_cp : list N := [
   lit N 9999999999999999502 (-19);
   lit N (-2688392681856542343) (-18);
   lit N 26477222699473109692 (-19);
   lit N (-11538559607887416355) (-19);
   lit N 20886077795020607837 (-20);
   lit N (-10859777134152463084) (-21)
].

(* src/fortran/Li2.f90:30  array cq(7) *)
Definition f_dli2_cq : list N := [
   lit N 1 0;
   lit N (-29383926818565635485) (-19);
   lit N 32712093293018635389 (-19);
   lit N (-17076702173954289421) (-19);
   lit N 41596017228400603836 (-20);
   lit N (-39801343754084482956) (-21);
   lit N 82743668974466659035 (-23)
].

(* src/fortran/Li2.f90:19-86 *)
Definition f_dli2 (x : car N) : car N * car N :=
  let PI := lit N 314159265358979324 (-17) in
  let k1 (y : car N) (r : car N) (s : car N) :=
    let y2 := y * y in
    let y4 := y2 * y2 in
    let p := (aref N f_dli2_cp 0) + y * (aref N f_dli2_cp 1) + y2 * ((aref N f_dli2_cp 2) + y * (aref N f_dli2_cp 3)) + y4 * ((aref N f_dli2_cp 4) + y * (aref N f_dli2_cp 5)) in
    let q := (aref N f_dli2_cq 0) + y * (aref N f_dli2_cq 1) + y2 * ((aref N f_dli2_cq 2) + y * (aref N f_dli2_cq 3)) + y4 * ((aref N f_dli2_cq 4) + y * (aref N f_dli2_cq 5) + y2 * (aref N f_dli2_cq 6)) in
    let dli2 := r + s * y * p / q in
    (dli2, x) in
  if ltb N x (lit N (-1) 0) then
    let l := nlog N ((lit N 1 0) - x) in
    let y := (lit N 1 0) / ((lit N 1 0) - x) in
    let r := (opp N (PI * PI / (lit N 6 0))) + l * ((lit N 5 (-1)) * l - (nlog N (opp N x))) in
    let s := lit N 1 0 in
    k1 y r s
  else if eqb N x (lit N (-1) 0) then
    let dli2 := opp N (PI * PI / (lit N 12 0)) in
    (dli2, x)
  else if ltb N x (lit N 0 0) then
    let y := x / (x - (lit N 1 0)) in
    let r := opp N ((lit N 5 (-1)) * ((nlog N ((lit N 1 0) - x)) * (nlog N ((lit N 1 0) - x)))) in
    let s := lit N (-1) 0 in
    k1 y r s
  else if eqb N x (lit N 0 0) then
    let dli2 := x in
    (dli2, x)
  else if ltb N x (lit N 5 (-1)) then
    let y := x in
    let r := lit N 0 0 in
    let s := lit N 1 0 in
    k1 y r s
  else if ltb N x (lit N 1 0) then
    let y := (lit N 1 0) - x in
    let r := PI * PI / (lit N 6 0) - (nlog N x) * (nlog N y) in
    let s := lit N (-1) 0 in
    k1 y r s
  else if eqb N x (lit N 1 0) then
    let dli2 := PI * PI / (lit N 6 0) in
    (dli2, x)
  else if ltb N x (lit N 2 0) then
    let l := nlog N x in
    let y := (lit N 1 0) - (lit N 1 0) / x in
    let r := PI * PI / (lit N 6 0) - l * ((nlog N y) + (lit N 5 (-1)) * l) in
    let s := lit N 1 0 in
    k1 y r s
  else
    let y := (lit N 1 0) / x in
    let r := PI * PI / (lit N 3 0) - (lit N 5 (-1)) * ((nlog N x) * (nlog N x)) in
    let s := lit N (-1) 0 in
    k1 y r s.

(* src/fortran/Li2.f90:101  array bf(10) *)
Definition f_cdli2_bf : list N := [
   opp N ((lit N 1 0) / (lit N 4 0));
   (lit N 1 0) / (lit N 36 0);
   opp N ((lit N 1 0) / (lit N 3600 0));
   (lit N 1 0) / (lit N 211680 0);
   opp N ((lit N 1 0) / (lit N 10886400 0));
   (lit N 1 0) / (lit N 526901760 0);
   lit N (-40647616451442255) (-27);
   lit N 89216910204564526 (-29);
   lit N (-19939295860721076) (-30);
   lit N 45189800296199182 (-32)
].

(* src/fortran/Li2.f90:96-168 *)
Definition f_cdli2 (undef : cpx N) (z : cpx N) : cpx N * cpx N :=
  let cdli2 := undef in
  let PI := lit N 314159265358979324 (-17) in
  let rz := fst z in
  let iz := snd z in
  if eqb N iz (lit N 0 0) then
    let cdli2 :=
      if leb N rz (lit N 1 0) then
        let cdli2 := (fst (f_dli2 rz), iz) in
        cdli2
      else
        cdli2 in
    let cdli2 :=
      if ltb N (lit N 1 0) rz then
        let cdli2 := (fst (f_dli2 rz), opp N (PI * (nlog N rz))) in
        cdli2
      else
        cdli2 in
    (cdli2, z)
  else
    let nz := rz * rz + iz * iz in
    if ltb N nz (eps N) then
      let cdli2 := cmul N z (cadd_rc N (lit N 1 0) (cmul_rc N (lit N 25 (-2)) z)) in
      (cdli2, z)
    else
      let '(u, rest, sgn) :=
        if leb N rz (lit N 5 (-1)) then
          if ltb N (lit N 1 0) nz then
            let u := copp N (fst (f_cdlog1p (copp N (cdiv_rc N (lit N 1 0) z)))) in
            let rest := csub_cr N (copp N (cmul_rc N (lit N 5 (-1)) (cmul N (clog N (copp N z)) (clog N (copp N z))))) (PI * PI / (lit N 6 0)) in
            let sgn := lit N (-1) 0 in
            (u, rest, sgn)
          else
            let u := copp N (fst (f_cdlog1p (copp N z))) in
            let rest := (lit N 0 0, lit N 0 0) in
            let sgn := lit N 1 0 in
            (u, rest, sgn)
        else if leb N nz ((lit N 2 0) * rz) then
          let u := copp N (clog N z) in
          let rest := cadd_cr N (cmul N u (fst (f_cdlog1p (copp N z)))) (PI * PI / (lit N 6 0)) in
          let sgn := lit N (-1) 0 in
          (u, rest, sgn)
        else
          let u := copp N (fst (f_cdlog1p (copp N (cdiv_rc N (lit N 1 0) z)))) in
          let rest := csub_cr N (copp N (cmul_rc N (lit N 5 (-1)) (cmul N (clog N (copp N z)) (clog N (copp N z))))) (PI * PI / (lit N 6 0)) in
          let sgn := lit N (-1) 0 in
          (u, rest, sgn) in
      let u2 := cmul N u u in
      let u4 := cmul N u2 u2 in
      let sum := cadd N u (cmul N u2 (cadd_rc N (aref N f_cdli2_bf 0) (cmul N u (cadd_rc N (aref N f_cdli2_bf 1) (cmul N u2 (cadd N (cadd N (cadd_rc N (aref N f_cdli2_bf 2) (cmul_cr N u2 (aref N f_cdli2_bf 3))) (cmul N u4 (cadd_rc N (aref N f_cdli2_bf 4) (cmul_cr N u2 (aref N f_cdli2_bf 5))))) (cmul N (cmul N u4 u4) (cadd N (cadd_rc N (aref N f_cdli2_bf 6) (cmul_cr N u2 (aref N f_cdli2_bf 7))) (cmul N u4 (cadd_rc N (aref N f_cdli2_bf 8) (cmul_cr N u2 (aref N f_cdli2_bf 9)))))))))))) in
      let cdli2 := cadd N (cmul_rc N sgn sum) rest in
      (cdli2, z).

(* src/fortran/Li3.f90:12  array cp(6) *)
Definition f_dli3_neg_cp : list N := [
   lit N 9999999999999999795 (-19);
   lit N (-20281801754117129576) (-19);
   lit N 1436402988756171854 (-18);
   lit N (-42240680435713030268) (-20);
   lit N 47296746450884096877 (-21);
   lit N (-13453536579918419568) (-22)
].

(* src/fortran/Li3.f90:16  array cq(7) *)
Definition f_dli3_neg_cq : list N := [
   lit N 1 0;
   lit N (-21531801754117049035) (-19);
   lit N 16685134736461140517 (-19);
   lit N (-5668485746458454431) (-19);
   lit N 81999463370623961084 (-21);
   lit N (-40756048502924149389) (-22);
   lit N 34316398489103212699 (-24)
].

(* src/fortran/Li3.f90:9-31 *)
Definition f_dli3_neg (x : car N) : car N * car N :=
  let x2 := x * x in
  let x4 := x2 * x2 in
  let p := (aref N f_dli3_neg_cp 0) + x * (aref N f_dli3_neg_cp 1) + x2 * ((aref N f_dli3_neg_cp 2) + x * (aref N f_dli3_neg_cp 3)) + x4 * ((aref N f_dli3_neg_cp 4) + x * (aref N f_dli3_neg_cp 5)) in
  let q := (aref N f_dli3_neg_cq 0) + x * (aref N f_dli3_neg_cq 1) + x2 * ((aref N f_dli3_neg_cq 2) + x * (aref N f_dli3_neg_cq 3)) + x4 * ((aref N f_dli3_neg_cq 4) + x * (aref N f_dli3_neg_cq 5) + x2 * (aref N f_dli3_neg_cq 6)) in
  let dli3_neg := x * p / q in
  (dli3_neg, x).

(* src/fortran/Li3.f90:38  array cp(6) *)
Definition f_dli3_pos_cp : list N := [
   lit N 9999999999999999893 (-19);
   lit N (-25224717303769789628) (-19);
   lit N 23204919140887894133 (-19);
   lit N (-93980973288965037869) (-20);
   lit N 15728950200990509052 (-20);
   lit N (-75485193983677071129) (-22)
].

(* src/fortran/Li3.f90:42  array cq(7) *)
Definition f_dli3_pos_cq : list N := [
   lit N 1 0;
   lit N (-26474717303769836244) (-19);
   lit N 26143888433492184741 (-19);
   lit N (-11841788297857667038) (-19);
   lit N 2418493852479365112 (-19);
   lit N (-18220900115898156346) (-21);
   lit N 24927971540017376759 (-23)
].

(* src/fortran/Li3.f90:35-57 *)
Definition f_dli3_pos (x : car N) : car N * car N :=
  let x2 := x * x in
  let x4 := x2 * x2 in
  let p := (aref N f_dli3_pos_cp 0) + x * (aref N f_dli3_pos_cp 1) + x2 * ((aref N f_dli3_pos_cp 2) + x * (aref N f_dli3_pos_cp 3)) + x4 * ((aref N f_dli3_pos_cp 4) + x * (aref N f_dli3_pos_cp 5)) in
  let q := (aref N f_dli3_pos_cq 0) + x * (aref N f_dli3_pos_cq 1) + x2 * ((aref N f_dli3_pos_cq 2) + x * (aref N f_dli3_pos_cq 3)) + x4 * ((aref N f_dli3_pos_cq 4) + x * (aref N f_dli3_pos_cq 5) + x2 * (aref N f_dli3_pos_cq 6)) in
  let dli3_pos := x * p / q in
  (dli3_pos, x).

(* src/fortran/Li3.f90:66-101 *)
Definition f_dli3 (x : car N) : car N * car N :=
  let zeta2 := lit N 16449340668482264 (-16) in
  let zeta3 := lit N 12020569031595943 (-16) in
  if ltb N x (lit N (-1) 0) then
    let l := nlog N (opp N x) in
    let dli3 := (fst (f_dli3_neg ((lit N 1 0) / x))) - l * (zeta2 + (lit N 1 0) / (lit N 6 0) * (l * l)) in
    (dli3, x)
  else if eqb N x (lit N (-1) 0) then
    let dli3 := opp N ((lit N 75 (-2)) * zeta3) in
    (dli3, x)
  else if ltb N x (lit N 0 0) then
    let dli3 := fst (f_dli3_neg x) in
    (dli3, x)
  else if eqb N x (lit N 0 0) then
    let dli3 := x in
    (dli3, x)
  else if ltb N x (lit N 5 (-1)) then
    let dli3 := fst (f_dli3_pos x) in
    (dli3, x)
  else if eqb N x (lit N 5 (-1)) then
    let dli3 := lit N 5372131936080402 (-16) in
    (dli3, x)
  else if ltb N x (lit N 1 0) then
    let l := nlog N x in
    let dli3 := (opp N (fst (f_dli3_neg ((lit N 1 0) - (lit N 1 0) / x)))) - (fst (f_dli3_pos ((lit N 1 0) - x))) + zeta3 + l * (zeta2 + l * ((opp N ((lit N 5 (-1)) * (nlog N ((lit N 1 0) - x)))) + (lit N 1 0) / (lit N 6 0) * l)) in
    (dli3, x)
  else if eqb N x (lit N 1 0) then
    let dli3 := zeta3 in
    (dli3, x)
  else if ltb N x (lit N 2 0) then
    let l := nlog N x in
    let dli3 := (opp N (fst (f_dli3_neg ((lit N 1 0) - x)))) - (fst (f_dli3_pos ((lit N 1 0) - (lit N 1 0) / x))) + zeta3 + l * (zeta2 + l * ((opp N ((lit N 5 (-1)) * (nlog N (x - (lit N 1 0))))) + (lit N 1 0) / (lit N 6 0) * l)) in
    (dli3, x)
  else
    let l := nlog N x in
    let dli3 := (fst (f_dli3_pos ((lit N 1 0) / x))) + l * ((lit N 2 0) * zeta2 - (lit N 1 0) / (lit N 6 0) * (l * l)) in
    (dli3, x).

(* src/fortran/Li3.f90:117  array bf(18) *)
Definition f_cdli3_bf : list N := [
   lit N 1 0;
   opp N ((lit N 3 0) / (lit N 8 0));
   (lit N 17 0) / (lit N 216 0);
   opp N ((lit N 5 0) / (lit N 576 0));
   lit N 12962962962962963 (-20);
   lit N 81018518518518519 (-21);
   lit N (-34193571608537595) (-22);
   lit N (-1328656462585034) (-21);
   lit N 86608717561098513 (-24);
   lit N 252608759553204 (-22);
   lit N (-21446944683640648) (-25);
   lit N (-51401106220129789) (-26);
   lit N 52495821146008294 (-27);
   lit N 10887754406636318 (-27);
   lit N (-12779396094493695) (-28);
   lit N (-23698241773087452) (-29);
   lit N 31043578879654623 (-30);
   lit N 52617586299125061 (-31)
].

(* src/fortran/Li3.f90:127  array cs(7) *)
Definition f_cdli3_cs : list N := [
   lit N (-34722222222222222) (-19);
   lit N 11574074074074074 (-21);
   lit N (-98418997228521038) (-24);
   lit N 11482216343327454 (-25);
   lit N (-15815724990809166) (-27);
   lit N 24195009792525152 (-29);
   lit N (-39828977769894877) (-31)
].

(* src/fortran/Li3.f90:110-194 *)
Definition f_cdli3 (z : cpx N) : cpx N * cpx N :=
  let PI := lit N 31415926535897932 (-16) in
  let zeta2 := lit N 16449340668482264 (-16) in
  let zeta3 := lit N 12020569031595943 (-16) in
  let rz := fst z in
  let iz := snd z in
  if eqb N iz (lit N 0 0) then
    if leb N rz (lit N 1 0) then
      let cdli3 := (fst (f_dli3 rz), iz) in
      (cdli3, z)
    else
      let lnz := nlog N rz in
      let cdli3 := (fst (f_dli3 rz), opp N ((lit N 5 (-1)) * PI * (lnz * lnz))) in
      (cdli3, z)
  else
    let nz := nhypot N rz iz in
    let pz := natan2 N iz rz in
    let lnz := nlog N nz in
    if ltb N (lnz * lnz + pz * pz) (lit N 1 0) then
      let u := (lnz, pz) in
      let u2 := cmul N u u in
      let u4 := cmul N u2 u2 in
      let u8 := cmul N u4 u4 in
      let c0 := cadd_rc N zeta3 (cmul N u (csub_rc N zeta2 (cdiv_cr N u2 (lit N 12 0)))) in
      let c1 := cmul_rc N (lit N 25 (-2)) (csub_rc N (lit N 3 0) (cmul_rc N (lit N 2 0) (fst (f_pos_cdlog (copp N u))))) in
      let cdli3 := cadd N (cadd N (cadd N (cadd N c0 (cmul N c1 u2)) (cmul N u4 (cadd_rc N (aref N f_cdli3_cs 0) (cmul_cr N u2 (aref N f_cdli3_cs 1))))) (cmul N u8 (cadd N (cadd_rc N (aref N f_cdli3_cs 2) (cmul_cr N u2 (aref N f_cdli3_cs 3))) (cmul N u4 (cadd_rc N (aref N f_cdli3_cs 4) (cmul_cr N u2 (aref N f_cdli3_cs 5))))))) (cmul_cr N (cmul N u8 u8) (aref N f_cdli3_cs 6)) in
      (cdli3, z)
    else
      let '(u, rest) :=
        if leb N nz (lit N 1 0) then
          let u := copp N (fst (f_pos_cdlog (csub_rc N (lit N 1 0) z))) in
          let rest := (lit N 0 0, lit N 0 0) in
          (u, rest)
        else
          let arg :=
            if ltb N (lit N 0 0) pz then
              let arg := pz - PI in
              arg
            else
              let arg := pz + PI in
              arg in
          let lmz := (lnz, arg) in
          let u := copp N (fst (f_pos_cdlog (csub_rc N (lit N 1 0) (cdiv_rc N (lit N 1 0) z)))) in
          let rest := copp N (cmul N lmz (cadd_cr N (cdiv_cr N (cmul N lmz lmz) (lit N 6 0)) zeta2)) in
          (u, rest) in
      let u2 := cmul N u u in
      let u4 := cmul N u2 u2 in
      let u8 := cmul N u4 u4 in
      let cdli3 := cadd N (cadd N (cadd N (cadd N (cadd N rest (cmul_cr N u (aref N f_cdli3_bf 0))) (cmul N u2 (cadd_rc N (aref N f_cdli3_bf 1) (cmul_cr N u (aref N f_cdli3_bf 2))))) (cmul N u4 (cadd N (cadd_rc N (aref N f_cdli3_bf 3) (cmul_cr N u (aref N f_cdli3_bf 4))) (cmul N u2 (cadd_rc N (aref N f_cdli3_bf 5) (cmul_cr N u (aref N f_cdli3_bf 6))))))) (cmul N u8 (cadd N (cadd N (cadd_rc N (aref N f_cdli3_bf 7) (cmul_cr N u (aref N f_cdli3_bf 8))) (cmul N u2 (cadd_rc N (aref N f_cdli3_bf 9) (cmul_cr N u (aref N f_cdli3_bf 10))))) (cmul N u4 (cadd N (cadd_rc N (aref N f_cdli3_bf 11) (cmul_cr N u (aref N f_cdli3_bf 12))) (cmul N u2 (cadd_rc N (aref N f_cdli3_bf 13) (cmul_cr N u (aref N f_cdli3_bf 14))))))))) (cmul N (cmul N u8 u8) (cadd N (cadd_rc N (aref N f_cdli3_bf 15) (cmul_cr N u (aref N f_cdli3_bf 16))) (cmul_cr N u2 (aref N f_cdli3_bf 17)))) in
      (cdli3, z).

(* src/fortran/Li4.f90:12  array cp(6) *)
Definition f_dli4_neg_cp : list N := [
   lit N 9999999999999999952 (-19);
   lit N (-18532099956062184217) (-19);
   lit N 11937642574034898249 (-19);
   lit N (-31817912243893560382) (-20);
   lit N 32268284189261624841 (-21);
   lit N (-83773570305913850724) (-23)
].

(* src/fortran/Li4.f90:16  array cq(7) *)
Definition f_dli4_neg_cq : list N := [
   lit N 1 0;
   lit N (-19157099956062165688) (-19);
   lit N 13011504531166486419 (-19);
   lit N (-37975653506939627186) (-20);
   lit N 4582272399655878367 (-20);
   lit N (-18023912938765272341) (-22);
   lit N 10199621542882314929 (-24)
].

(* src/fortran/Li4.f90:9-31 *)
Definition f_dli4_neg (x : car N) : car N * car N :=
  let x2 := x * x in
  let x4 := x2 * x2 in
  let p := (aref N f_dli4_neg_cp 0) + x * (aref N f_dli4_neg_cp 1) + x2 * ((aref N f_dli4_neg_cp 2) + x * (aref N f_dli4_neg_cp 3)) + x4 * ((aref N f_dli4_neg_cp 4) + x * (aref N f_dli4_neg_cp 5)) in
  let q := (aref N f_dli4_neg_cq 0) + x * (aref N f_dli4_neg_cq 1) + x2 * ((aref N f_dli4_neg_cq 2) + x * (aref N f_dli4_neg_cq 3)) + x4 * ((aref N f_dli4_neg_cq 4) + x * (aref N f_dli4_neg_cq 5) + x2 * (aref N f_dli4_neg_cq 6)) in
  let dli4_neg := x * p / q in
  (dli4_neg, x).

(* src/fortran/Li4.f90:38  array cp(6) *)
Definition f_dli4_half_cp : list N := [
   lit N 10000000000000000414 (-19);
   lit N (-20588072418045364525) (-19);
   lit N 14713328756794826579 (-19);
   lit N (-42608608613069811474) (-20);
   lit N 4297508427885154315 (-20);
   lit N (-68314031819918920802) (-23)
].

(* src/fortran/Li4.f90:42  array cq(6) *)
Definition f_dli4_half_cq : list N := [
   lit N 1 0;
   lit N (-21213072418045207223) (-19);
   lit N 15915688992789175941 (-19);
   lit N (-50327641401677265813) (-20);
   lit N 61467217495127095177 (-21);
   lit N (-1906129428019328033) (-21)
].

(* src/fortran/Li4.f90:35-56 *)
Definition f_dli4_half (x : car N) : car N * car N :=
  let x2 := x * x in
  let x4 := x2 * x2 in
  let p := (aref N f_dli4_half_cp 0) + x * (aref N f_dli4_half_cp 1) + x2 * ((aref N f_dli4_half_cp 2) + x * (aref N f_dli4_half_cp 3)) + x4 * ((aref N f_dli4_half_cp 4) + x * (aref N f_dli4_half_cp 5)) in
  let q := (aref N f_dli4_half_cq 0) + x * (aref N f_dli4_half_cq 1) + x2 * ((aref N f_dli4_half_cq 2) + x * (aref N f_dli4_half_cq 3)) + x4 * ((aref N f_dli4_half_cq 4) + x * (aref N f_dli4_half_cq 5)) in
  let dli4_half := x * p / q in
  (dli4_half, x).

(* src/fortran/Li4.f90:63  array cp(7) *)
Definition f_dli4_mid_cp : list N := [
   lit N 32009826406098890447 (-28);
   lit N 9999999463483757416 (-19);
   lit N (-29144851228299341318) (-19);
   lit N 31891031447462342009 (-19);
   lit N (-1600912515851111709) (-18);
   lit N 35397747039432351193 (-20);
   lit N (-25230024124741454735) (-21)
].

(* src/fortran/Li4.f90:68  array cq(7) *)
Definition f_dli4_mid_cq : list N := [
   lit N 1 0;
   lit N (-2976985524841148846) (-18);
   lit N 33628208295110572579 (-19);
   lit N (-17782471949702788393) (-19);
   lit N 43364007973198649921 (-20);
   lit N (-39535592340362510549) (-21);
   lit N 57373431535336755591 (-23)
].

(* src/fortran/Li4.f90:60-83 *)
Definition f_dli4_mid (x : car N) : car N * car N :=
  let x2 := x * x in
  let x4 := x2 * x2 in
  let p := (aref N f_dli4_mid_cp 0) + x * (aref N f_dli4_mid_cp 1) + x2 * ((aref N f_dli4_mid_cp 2) + x * (aref N f_dli4_mid_cp 3)) + x4 * ((aref N f_dli4_mid_cp 4) + x * (aref N f_dli4_mid_cp 5) + x2 * (aref N f_dli4_mid_cp 6)) in
  let q := (aref N f_dli4_mid_cq 0) + x * (aref N f_dli4_mid_cq 1) + x2 * ((aref N f_dli4_mid_cq 2) + x * (aref N f_dli4_mid_cq 3)) + x4 * ((aref N f_dli4_mid_cq 4) + x * (aref N f_dli4_mid_cq 5) + x2 * (aref N f_dli4_mid_cq 6)) in
  let dli4_mid := p / q in
  (dli4_mid, x).

(* src/fortran/Li4.f90:87-101 *)
Definition f_dli4_one (x : car N) : car N * car N :=
  let zeta2 := lit N 16449340668482264 (-16) in
  let zeta3 := lit N 12020569031595943 (-16) in
  let zeta4 := lit N 10823232337111382 (-16) in
  let l := nlog N x in
  let l2 := l * l in
  let dli4_one := zeta4 + l * (zeta3 + l * ((lit N 5 (-1)) * zeta2 + l * ((lit N 11 0) / (lit N 36 0) - (lit N 1 0) / (lit N 6 0) * (nlog N (opp N l)) + l * ((opp N ((lit N 1 0) / (lit N 48 0))) + l * ((opp N ((lit N 1 0) / (lit N 1440 0))) + l2 * ((lit N 1 0) / (lit N 604800 0) - (lit N 1 0) / (lit N 91445760 0) * l2)))))) in
  (dli4_one, x).

(* src/fortran/Li4.f90:110-156 *)
Definition f_dli4 (x : car N) : car N * car N :=
  let zeta2 := lit N 16449340668482264 (-16) in
  let zeta4 := lit N 10823232337111382 (-16) in
  let k1 (x : car N) (rest : car N) (sgn : car N) :=
    let app :=
      if ltb N x (lit N 0 0) then
        let app := fst (f_dli4_neg x) in
        app
      else if ltb N x (lit N 5 (-1)) then
        let app := fst (f_dli4_half x) in
        app
      else if ltb N x (lit N 8 (-1)) then
        let app := fst (f_dli4_mid x) in
        app
      else
        let app := fst (f_dli4_one x) in
        app in
    let dli4 := rest + sgn * app in
    (dli4, x) in
  if ltb N x (lit N (-1) 0) then
    let l := nlog N (opp N x) in
    let l2 := l * l in
    let x := (lit N 1 0) / x in
    let rest := (opp N ((lit N 7 0) / (lit N 4 0) * zeta4)) + l2 * ((opp N ((lit N 5 (-1)) * zeta2)) - (lit N 1 0) / (lit N 24 0) * l2) in
    let sgn := lit N (-1) 0 in
    k1 x rest sgn
  else if eqb N x (lit N (-1) 0) then
    let dli4 := opp N ((lit N 7 0) / (lit N 8 0) * zeta4) in
    (dli4, x)
  else if eqb N x (lit N 0 0) then
    let dli4 := x in
    (dli4, x)
  else if ltb N x (lit N 1 0) then
    let rest := lit N 0 0 in
    let sgn := lit N 1 0 in
    k1 x rest sgn
  else if eqb N x (lit N 1 0) then
    let dli4 := zeta4 in
    (dli4, x)
  else
    let l := nlog N x in
    let l2 := l * l in
    let x := (lit N 1 0) / x in
    let rest := (lit N 2 0) * zeta4 + l2 * (zeta2 - (lit N 1 0) / (lit N 24 0) * l2) in
    let sgn := lit N (-1) 0 in
    k1 x rest sgn.

(* src/fortran/Li4.f90:176  array bf(18) *)
Definition f_cdli4_bf : list N := [
   lit N 1 0;
   opp N ((lit N 7 0) / (lit N 16 0));
   lit N 11651234567901235 (-17);
   lit N (-19820601851851852) (-18);
   lit N 19279320987654321 (-19);
   lit N (-31057098765432099) (-21);
   lit N (-15624009114857835) (-21);
   lit N 84851235467732066 (-23);
   lit N 22909616603189711 (-23);
   lit N (-21832614218526917) (-24);
   lit N (-38828248791720156) (-25);
   lit N 54462921032203321 (-26);
   lit N 69608052106827254 (-27);
   lit N (-13375737686445215) (-27);
   lit N (-12784852685266572) (-28);
   lit N 32605628580248922 (-29);
   lit N 23647571168618257 (-30);
   lit N (-79231351220311617) (-31)
].

(* src/fortran/Li4.f90:186  array cs(7) *)
Definition f_cdli4_cs : list N := [
   lit N (-69444444444444444) (-20);
   lit N 16534391534391534 (-22);
   lit N (-10935444136502338) (-24);
   lit N 10438378493934049 (-26);
   lit N (-12165942300622435) (-28);
   lit N 16130006528350101 (-30);
   lit N (-2342881045287934) (-31)
].

(* src/fortran/Li4.f90:165-257 *)
Definition f_cdli4 (z : cpx N) : cpx N * cpx N :=
  let PI := lit N 31415926535897932 (-16) in
  let PI2 := lit N 98696044010893586 (-16) in
  let PI4 := lit N 97409091034002437 (-15) in
  let zeta4 := lit N 10823232337111382 (-16) in
  let c1 := lit N 12020569031595943 (-16) in
  let c2 := lit N 82246703342411322 (-17) in
  let c4 := opp N ((lit N 1 0) / (lit N 48 0)) in
  let rz := fst z in
  let iz := snd z in
  if eqb N iz (lit N 0 0) then
    if leb N rz (lit N 1 0) then
      let cdli4 := (fst (f_dli4 rz), iz) in
      (cdli4, z)
    else
      let lnz := nlog N rz in
      let cdli4 := (fst (f_dli4 rz), opp N ((lit N 1 0) / (lit N 6 0) * PI * (lnz * lnz * lnz))) in
      (cdli4, z)
  else
    let nz := nhypot N rz iz in
    let pz := natan2 N iz rz in
    let lnz := nlog N nz in
    if ltb N (lnz * lnz + pz * pz) (lit N 1 0) then
      let u := (lnz, pz) in
      let u2 := cmul N u u in
      let u4 := cmul N u2 u2 in
      let u8 := cmul N u4 u4 in
      let c3 := cdiv_cr N (csub_rc N ((lit N 11 0) / (lit N 6 0)) (fst (f_pos_cdlog (copp N u)))) (lit N 6 0) in
      let cdli4 := cadd N (cadd_rc N zeta4 (cmul N u2 (cadd_rc N c2 (cmul_cr N u2 c4)))) (cmul N u (cadd N (cadd N (cadd N (cadd_rc N c1 (cmul N c3 u2)) (cmul N u4 (cadd_rc N (aref N f_cdli4_cs 0) (cmul_cr N u2 (aref N f_cdli4_cs 1))))) (cmul N u8 (cadd N (cadd_rc N (aref N f_cdli4_cs 2) (cmul_cr N u2 (aref N f_cdli4_cs 3))) (cmul N u4 (cadd_rc N (aref N f_cdli4_cs 4) (cmul_cr N u2 (aref N f_cdli4_cs 5))))))) (cmul_cr N (cmul N u8 u8) (aref N f_cdli4_cs 6)))) in
      (cdli4, z)
    else
      let '(u, r, sgn) :=
        if leb N nz (lit N 1 0) then
          let u := copp N (fst (f_pos_cdlog (csub_rc N (lit N 1 0) z))) in
          let r := (lit N 0 0, lit N 0 0) in
          let sgn := lit N 1 0 in
          (u, r, sgn)
        else
          let arg :=
            if ltb N (lit N 0 0) pz then
              let arg := pz - PI in
              arg
            else
              let arg := pz + PI in
              arg in
          let lmz := (lnz, arg) in
          let u := copp N (fst (f_pos_cdlog (csub_rc N (lit N 1 0) (cdiv_rc N (lit N 1 0) z)))) in
          let r := cdiv_cr N (cadd_rc N (opp N ((lit N 7 0) * PI4)) (cmul N (cmul N lmz lmz) (csub_rc N (opp N ((lit N 30 0) * PI2)) (cmul_rc N (lit N 15 0) (cmul N lmz lmz))))) (lit N 360 0) in
          let sgn := lit N (-1) 0 in
          (u, r, sgn) in
      let u2 := cmul N u u in
      let u4 := cmul N u2 u2 in
      let u8 := cmul N u4 u4 in
      let cdli4 := cadd N r (cmul_rc N sgn (cadd N (cadd N (cadd N (cadd N (cmul_cr N u (aref N f_cdli4_bf 0)) (cmul N u2 (cadd_rc N (aref N f_cdli4_bf 1) (cmul_cr N u (aref N f_cdli4_bf 2))))) (cmul N u4 (cadd N (cadd_rc N (aref N f_cdli4_bf 3) (cmul_cr N u (aref N f_cdli4_bf 4))) (cmul N u2 (cadd_rc N (aref N f_cdli4_bf 5) (cmul_cr N u (aref N f_cdli4_bf 6))))))) (cmul N u8 (cadd N (cadd N (cadd_rc N (aref N f_cdli4_bf 7) (cmul_cr N u (aref N f_cdli4_bf 8))) (cmul N u2 (cadd_rc N (aref N f_cdli4_bf 9) (cmul_cr N u (aref N f_cdli4_bf 10))))) (cmul N u4 (cadd N (cadd_rc N (aref N f_cdli4_bf 11) (cmul_cr N u (aref N f_cdli4_bf 12))) (cmul N u2 (cadd_rc N (aref N f_cdli4_bf 13) (cmul_cr N u (aref N f_cdli4_bf 14))))))))) (cmul N (cmul N u8 u8) (cadd N (cadd_rc N (aref N f_cdli4_bf 15) (cmul_cr N u (aref N f_cdli4_bf 16))) (cmul_cr N u2 (aref N f_cdli4_bf 17)))))) in
      (cdli4, z).

(* src/fortran/Li5.f90:26  array bf(19) *)
Definition f_cdli5_bf : list N := [
   lit N 1 0;
   opp N ((lit N 15 0) / (lit N 32 0));
   lit N 13953189300411523 (-17);
   lit N (-2863377700617284) (-17);
   lit N 40317412551440329 (-19);
   lit N (-33985018004115226) (-20);
   lit N 45445184621617666 (-22);
   lit N 23916808048569012 (-22);
   lit N (-12762692600122747) (-23);
   lit N (-31628984306505932) (-24);
   lit N 32848118445335192 (-25);
   lit N 47613713995660579 (-26);
   lit N (-8084689817190983) (-26);
   lit N (-72387648587737207) (-28);
   lit N 19439760115173968 (-28);
   lit N 10256978405977236 (-29);
   lit N (-4618055100988483) (-29);
   lit N (-1153585719647058) (-30);
   lit N 10903545401333394 (-31)
].

(* src/fortran/Li5.f90:37  array cs(6) *)
Definition f_cdli5_cs : list N := [
   lit N (-11574074074074074) (-20);
   lit N 20667989417989418 (-23);
   lit N (-10935444136502338) (-25);
   lit N 86986487449450412 (-28);
   lit N (-86899587861588824) (-30);
   lit N 10081254080218813 (-31)
].

(* src/fortran/Li5.f90:14-108 *)
Definition f_cdli5 (z : cpx N) : cpx N * cpx N :=
  let PI := lit N 31415926535897932 (-16) in
  let PI2 := lit N 98696044010893586 (-16) in
  let PI4 := lit N 97409091034002437 (-15) in
  let zeta5 := lit N 10369277551433699 (-16) in
  let c1 := lit N 10823232337111382 (-16) in
  let c2 := lit N 60102845157979714 (-17) in
  let c3 := lit N 27415567780803774 (-17) in
  let c5 := opp N ((lit N 1 0) / (lit N 240 0)) in
  let rz := fst z in
  let iz := snd z in
  let k1 (_ : unit) :=
    let nz := nhypot N rz iz in
    let pz := natan2 N iz rz in
    let lnz := nlog N nz in
    if ltb N (lnz * lnz + pz * pz) (lit N 1 0) then
      let u := (lnz, pz) in
      let u2 := cmul N u u in
      let c4 := cdiv_cr N (csub_rc N ((lit N 25 0) / (lit N 12 0)) (fst (f_pos_cdlog (copp N u)))) (lit N 24 0) in
      let cdli5 := cadd N (cadd_rc N zeta5 (cmul_cr N u c1)) (cmul N u2 (cadd N (cadd_rc N c2 (cmul_cr N u c3)) (cmul N u2 (cadd N (cadd N c4 (cmul_cr N u c5)) (cmul N u2 (cadd_rc N (aref N f_cdli5_cs 0) (cmul N u2 (cadd_rc N (aref N f_cdli5_cs 1) (cmul N u2 (cadd_rc N (aref N f_cdli5_cs 2) (cmul N u2 (cadd_rc N (aref N f_cdli5_cs 3) (cmul N u2 (cadd_rc N (aref N f_cdli5_cs 4) (cmul_cr N u2 (aref N f_cdli5_cs 5)))))))))))))))) in
      (cdli5, z)
    else
      let '(u, rest) :=
        if leb N nz (lit N 1 0) then
          let u := copp N (fst (f_pos_cdlog (csub_rc N (lit N 1 0) z))) in
          let rest := (lit N 0 0, lit N 0 0) in
          (u, rest)
        else
          let arg :=
            if ltb N (lit N 0 0) pz then
              let arg := pz - PI in
              arg
            else
              let arg := pz + PI in
              arg in
          let lmz := (lnz, arg) in
          let u := copp N (fst (f_pos_cdlog (csub_rc N (lit N 1 0) (cdiv_rc N (lit N 1 0) z)))) in
          let rest := copp N (cdiv_cr N (cmul N lmz (cadd_rc N ((lit N 7 0) * PI4) (cmul N (cmul N lmz lmz) (cadd_rc N ((lit N 10 0) * PI2) (cmul_rc N (lit N 3 0) (cmul N lmz lmz)))))) (lit N 360 0)) in
          (u, rest) in
      let u2 := cmul N u u in
      let u4 := cmul N u2 u2 in
      let u8 := cmul N u4 u4 in
      let cdli5 := cadd N (cadd N (cadd N (cadd N (cadd N rest (cmul_cr N u (aref N f_cdli5_bf 0))) (cmul N u2 (cadd_rc N (aref N f_cdli5_bf 1) (cmul_cr N u (aref N f_cdli5_bf 2))))) (cmul N u4 (cadd N (cadd_rc N (aref N f_cdli5_bf 3) (cmul_cr N u (aref N f_cdli5_bf 4))) (cmul N u2 (cadd_rc N (aref N f_cdli5_bf 5) (cmul_cr N u (aref N f_cdli5_bf 6))))))) (cmul N u8 (cadd N (cadd N (cadd_rc N (aref N f_cdli5_bf 7) (cmul_cr N u (aref N f_cdli5_bf 8))) (cmul N u2 (cadd_rc N (aref N f_cdli5_bf 9) (cmul_cr N u (aref N f_cdli5_bf 10))))) (cmul N u4 (cadd N (cadd_rc N (aref N f_cdli5_bf 11) (cmul_cr N u (aref N f_cdli5_bf 12))) (cmul N u2 (cadd_rc N (aref N f_cdli5_bf 13) (cmul_cr N u (aref N f_cdli5_bf 14))))))))) (cmul N (cmul N u8 u8) (cadd N (cadd_rc N (aref N f_cdli5_bf 15) (cmul_cr N u (aref N f_cdli5_bf 16))) (cmul N u2 (cadd_rc N (aref N f_cdli5_bf 17) (cmul_cr N u (aref N f_cdli5_bf 18)))))) in
      (cdli5, z) in
  if eqb N iz (lit N 0 0) then
    if eqb N rz (lit N 0 0) then
      let cdli5 := (rz, iz) in
      (cdli5, z)
    else
      if eqb N rz (lit N 1 0) then
        let cdli5 := (zeta5, iz) in
        (cdli5, z)
      else
        if eqb N rz (lit N (-1) 0) then
          let cdli5 := (opp N ((lit N 15 0) * zeta5 / (lit N 16 0)), iz) in
          (cdli5, z)
        else
          k1 tt
  else
    k1 tt.

(* src/fortran/Li6.f90:28  array bf(18) *)
Definition f_cdli6_bf : list N := [
   lit N 1 0;
   opp N ((lit N 31 0) / (lit N 64 0));
   lit N 15241340877914952 (-17);
   lit N (-34365555877057613) (-18);
   lit N 57174797239368999 (-19);
   lit N (-68180453746570645) (-20);
   lit N 49960361948734493 (-21);
   lit N (-49166051196039048) (-23);
   lit N (-30632975161302164) (-23);
   lit N 14414599270849095 (-24);
   lit N 37272438230924107 (-25);
   lit N (-37300867345487607) (-26);
   lit N (-51246526816085832) (-27);
   lit N 90541930956636683 (-28);
   lit N 67381882615512517 (-29);
   lit N (-21215831150303135) (-29);
   lit N (-68408811719011698) (-31);
   lit N 48691178462005581 (-31)
].

(* src/fortran/Li6.f90:38  array cs(5) *)
Definition f_cdli6_cs : list N := [
   lit N (-16534391534391534) (-21);
   lit N 22964432686654909 (-24);
   lit N (-99413128513657614) (-27);
   lit N 66912682653423394 (-29);
   lit N (-57933058574392549) (-31)
].

(* src/fortran/Li6.f90:14-111 *)
Definition f_cdli6 (z : cpx N) : cpx N * cpx N :=
  let PI := lit N 31415926535897932 (-16) in
  let PI2 := lit N 98696044010893586 (-16) in
  let PI4 := lit N 97409091034002437 (-15) in
  let PI6 := lit N 96138919357530444 (-14) in
  let zeta6 := lit N 10173430619844491 (-16) in
  let c1 := lit N 10369277551433699 (-16) in
  let c2 := lit N 5411616168555691 (-16) in
  let c3 := lit N 20034281719326571 (-17) in
  let c4 := lit N 68538919452009435 (-18) in
  let c6 := opp N ((lit N 1 0) / (lit N 1440 0)) in
  let rz := fst z in
  let iz := snd z in
  let k1 (_ : unit) :=
    let nz := nhypot N rz iz in
    let pz := natan2 N iz rz in
    let lnz := nlog N nz in
    if ltb N (lnz * lnz + pz * pz) (lit N 1 0) then
      let u := (lnz, pz) in
      let u2 := cmul N u u in
      let c5 := cdiv_cr N (csub_rc N ((lit N 137 0) / (lit N 60 0)) (fst (f_pos_cdlog (copp N u)))) (lit N 120 0) in
      let cdli6 := cadd N (cadd_rc N zeta6 (cmul_cr N u c1)) (cmul N u2 (cadd N (cadd_rc N c2 (cmul_cr N u c3)) (cmul N u2 (cadd N (cadd_rc N c4 (cmul N u c5)) (cmul N u2 (cadd_rc N c6 (cmul N u (cadd_rc N (aref N f_cdli6_cs 0) (cmul N u2 (cadd_rc N (aref N f_cdli6_cs 1) (cmul N u2 (cadd_rc N (aref N f_cdli6_cs 2) (cmul N u2 (cadd_rc N (aref N f_cdli6_cs 3) (cmul_cr N u2 (aref N f_cdli6_cs 4)))))))))))))))) in
      (cdli6, z)
    else
      let '(u, r, sgn) :=
        if leb N nz (lit N 1 0) then
          let u := copp N (fst (f_pos_cdlog (csub_rc N (lit N 1 0) z))) in
          let r := (lit N 0 0, lit N 0 0) in
          let sgn := lit N 1 0 in
          (u, r, sgn)
        else
          let arg :=
            if ltb N (lit N 0 0) pz then
              let arg := pz - PI in
              arg
            else
              let arg := pz + PI in
              arg in
          let lmz := (lnz, arg) in
          let u := copp N (fst (f_pos_cdlog (csub_rc N (lit N 1 0) (cdiv_rc N (lit N 1 0) z)))) in
          let r := cadd_rc N (opp N ((lit N 31 0) * PI6 / (lit N 15120 0))) (cmul N (cmul N lmz lmz) (cadd_rc N (opp N ((lit N 7 0) * PI4 / (lit N 720 0))) (cmul N (cmul N lmz lmz) (csub_rc N (opp N (PI2 / (lit N 144 0))) (cdiv_cr N (cmul N lmz lmz) (lit N 720 0)))))) in
          let sgn := lit N (-1) 0 in
          (u, r, sgn) in
      let u2 := cmul N u u in
      let u4 := cmul N u2 u2 in
      let u8 := cmul N u4 u4 in
      let cdli6 := cadd N r (cmul_rc N sgn (cadd N (cadd N (cadd N (cadd N (cmul_cr N u (aref N f_cdli6_bf 0)) (cmul N u2 (cadd_rc N (aref N f_cdli6_bf 1) (cmul_cr N u (aref N f_cdli6_bf 2))))) (cmul N u4 (cadd N (cadd_rc N (aref N f_cdli6_bf 3) (cmul_cr N u (aref N f_cdli6_bf 4))) (cmul N u2 (cadd_rc N (aref N f_cdli6_bf 5) (cmul_cr N u (aref N f_cdli6_bf 6))))))) (cmul N u8 (cadd N (cadd N (cadd_rc N (aref N f_cdli6_bf 7) (cmul_cr N u (aref N f_cdli6_bf 8))) (cmul N u2 (cadd_rc N (aref N f_cdli6_bf 9) (cmul_cr N u (aref N f_cdli6_bf 10))))) (cmul N u4 (cadd N (cadd_rc N (aref N f_cdli6_bf 11) (cmul_cr N u (aref N f_cdli6_bf 12))) (cmul N u2 (cadd_rc N (aref N f_cdli6_bf 13) (cmul_cr N u (aref N f_cdli6_bf 14))))))))) (cmul N (cmul N u8 u8) (cadd N (cadd_rc N (aref N f_cdli6_bf 15) (cmul_cr N u (aref N f_cdli6_bf 16))) (cmul_cr N u2 (aref N f_cdli6_bf 17)))))) in
      (cdli6, z) in
  if eqb N iz (lit N 0 0) then
    if eqb N rz (lit N 0 0) then
      let cdli6 := (rz, iz) in
      (cdli6, z)
    else
      if eqb N rz (lit N 1 0) then
        let cdli6 := (zeta6, iz) in
        (cdli6, z)
      else
        if eqb N rz (lit N (-1) 0) then
          let cdli6 := (opp N ((lit N 31 0) * zeta6 / (lit N 32 0)), iz) in
          (cdli6, z)
        else
          k1 tt
  else
    k1 tt.

End M.
