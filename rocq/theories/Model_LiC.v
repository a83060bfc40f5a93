(** * Model of the complex polylogarithms Li2 .. Li6

    Transcribed from the C++ sources by tools/gen_models.py (expression by
    expression, with C++ precedence and associativity); every definition cites
    the lines it models.  Suffixes: _f float, _d double, _l long double with
    LDBL_DIG <= 18 (x87), _q long double with LDBL_DIG > 18 (quadruple). *)
From Coq Require Import ZArith List Bool.
From Verif Require Import Num.
From Verif Require Import Model_LiR.
Import ListNotations.
Local Open Scope Z_scope.

Section M.
Variable N : num.
Local Notation "x + y" := (add N x y).
Local Notation "x - y" := (sub N x y).
Local Notation "x * y" := (mul N x y).
Local Notation "x / y" := (div N x y).
Local Notation aref N c i := (Num.aref N c i%nat).
Local Notation chorner N k := (Num.chorner N k%nat).

(* src/cpp/Li2.cpp:296  array bf[4] *)
Definition cLi2_f_bf : list N := [
   (lit N (-1) 0) / (lit N 4 0);
   (lit N 1 0) / (lit N 36 0);
   (lit N (-1) 0) / (lit N 3600 0);
   (lit N 1 0) / (lit N 211680 0)
].

(* src/cpp/Li2.cpp:291-352 *)
Definition cLi2_f (z : cpx N) : cpx N :=
  let PI := lit N 314159265 (-8) in
  let rz := fst z in
  let iz := snd z in
  if eqb N iz (lit N 0 0) then
    if leb N rz (lit N 1 0) then
      (Li2_f N rz, iz)
    else
      (Li2_f N rz, (opp N PI) * (nlog N rz))
  else
    let nz := cnorm N z in
    if ltb N nz (eps N) then
      cmul N z (cadd_rc N (lit N 1 0) (cmul_rc N (lit N 25 (-2)) z))
    else
      let u := (lit N 0 0, lit N 0 0) in
      let rest := (lit N 0 0, lit N 0 0) in
      let sgn := lit N 1 0 in
      let '(u, rest, sgn) :=
        if leb N rz (lit N 5 (-1)) then
          let '(u, rest, sgn) :=
            if ltb N (lit N 1 0) nz then
              let lz := clog N (copp N z) in
              let u := copp N (clog1p N (cdiv_rc N (lit N (-1) 0) z)) in
              let rest := csub_cr N (cmul N (cmul_rc N (lit N (-5) (-1)) lz) lz) (PI * PI / (lit N 6 0)) in
              let sgn := lit N (-1) 0 in
              (u, rest, sgn)
            else
              let u := copp N (clog1p N (copp N z)) in
              let rest := (lit N 0 0, lit N 0 0) in
              let sgn := lit N 1 0 in
              (u, rest, sgn) in
          (u, rest, sgn)
        else
          let '(u, rest, sgn) :=
            if leb N nz ((lit N 2 0) * rz) then
              let u := copp N (clog N z) in
              let rest := cadd_cr N (cmul N u (clog1p N (copp N z))) (PI * PI / (lit N 6 0)) in
              let sgn := lit N (-1) 0 in
              (u, rest, sgn)
            else
              let lz := clog N (copp N z) in
              let u := copp N (clog1p N (cdiv_rc N (lit N (-1) 0) z)) in
              let rest := csub_cr N (cmul N (cmul_rc N (lit N (-5) (-1)) lz) lz) (PI * PI / (lit N 6 0)) in
              let sgn := lit N (-1) 0 in
              (u, rest, sgn) in
          (u, rest, sgn) in
      let u2 := cmul N u u in
      cadd N (cmul_rc N sgn (cadd N u (cmul N u2 (cadd_rc N (aref N cLi2_f_bf 0) (cmul N u (chorner N 1 u2 cLi2_f_bf)))))) rest.

(* src/cpp/Li2.cpp:369  array bf[10] *)
Definition cLi2_d_bf : list N := [
   (lit N (-1) 0) / (lit N 4 0);
   (lit N 1 0) / (lit N 36 0);
   (lit N (-1) 0) / (lit N 3600 0);
   (lit N 1 0) / (lit N 211680 0);
   (lit N (-1) 0) / (lit N 10886400 0);
   (lit N 1 0) / (lit N 526901760 0);
   lit N (-40647616451442255) (-27);
   lit N 89216910204564526 (-29);
   lit N (-19939295860721076) (-30);
   lit N 45189800296199182 (-32)
].

(* src/cpp/Li2.cpp:363-431 *)
Definition cLi2_d (z : cpx N) : cpx N :=
  let PI := lit N 31415926535897932 (-16) in
  let rz := fst z in
  let iz := snd z in
  if eqb N iz (lit N 0 0) then
    if leb N rz (lit N 1 0) then
      (Li2_d N rz, iz)
    else
      (Li2_d N rz, (opp N PI) * (nlog N rz))
  else
    let nz := cnorm N z in
    if ltb N nz (eps N) then
      cmul N z (cadd_rc N (lit N 1 0) (cmul_rc N (lit N 25 (-2)) z))
    else
      let u := (lit N 0 0, lit N 0 0) in
      let rest := (lit N 0 0, lit N 0 0) in
      let sgn := lit N 1 0 in
      let '(u, rest, sgn) :=
        if leb N rz (lit N 5 (-1)) then
          let '(u, rest, sgn) :=
            if ltb N (lit N 1 0) nz then
              let lz := clog N (copp N z) in
              let u := copp N (clog1p N (cdiv_rc N (lit N (-1) 0) z)) in
              let rest := csub_cr N (cmul N (cmul_rc N (lit N (-5) (-1)) lz) lz) (PI * PI / (lit N 6 0)) in
              let sgn := lit N (-1) 0 in
              (u, rest, sgn)
            else
              let u := copp N (clog1p N (copp N z)) in
              let rest := (lit N 0 0, lit N 0 0) in
              let sgn := lit N 1 0 in
              (u, rest, sgn) in
          (u, rest, sgn)
        else
          let '(u, rest, sgn) :=
            if leb N nz ((lit N 2 0) * rz) then
              let u := copp N (clog N z) in
              let rest := cadd_cr N (cmul N u (clog1p N (copp N z))) (PI * PI / (lit N 6 0)) in
              let sgn := lit N (-1) 0 in
              (u, rest, sgn)
            else
              let lz := clog N (copp N z) in
              let u := copp N (clog1p N (cdiv_rc N (lit N (-1) 0) z)) in
              let rest := csub_cr N (cmul N (cmul_rc N (lit N (-5) (-1)) lz) lz) (PI * PI / (lit N 6 0)) in
              let sgn := lit N (-1) 0 in
              (u, rest, sgn) in
          (u, rest, sgn) in
      let u2 := cmul N u u in
      cadd N (cmul_rc N sgn (cadd N u (cmul N u2 (cadd_rc N (aref N cLi2_d_bf 0) (cmul N u (chorner N 1 u2 cLi2_d_bf)))))) rest.

(* src/cpp/Li2.cpp:447  array bf[11] *)
Definition cLi2_l_bf : list N := [
   (lit N (-1) 0) / (lit N 4 0);
   (lit N 1 0) / (lit N 36 0);
   (lit N (-1) 0) / (lit N 3600 0);
   (lit N 1 0) / (lit N 211680 0);
   (lit N (-1) 0) / (lit N 10886400 0);
   (lit N 1 0) / (lit N 526901760 0);
   lit N (-406476164514422552680590938629196667) (-46);
   lit N 892169102045645255521798731675274885 (-48);
   lit N (-199392958607210756872364434779378971) (-49);
   lit N 451898002961991819165047655285559323 (-51);
   lit N (-103565176121812470144834115422186567) (-52)
].

(* src/cpp/Li2.cpp:441-524 *)
Definition cLi2_l (z : cpx N) : cpx N :=
  let PI := lit N 314159265358979323846264338327950288 (-35) in
  let rz := fst z in
  let iz := snd z in
  if eqb N iz (lit N 0 0) then
    if leb N rz (lit N 1 0) then
      (Li2_l N rz, iz)
    else
      (Li2_l N rz, (opp N PI) * (nlog N rz))
  else
    let nz := cnorm N z in
    if ltb N nz (eps N) then
      cmul N z (cadd_rc N (lit N 1 0) (cmul_rc N (lit N 25 (-2)) z))
    else
      let u := (lit N 0 0, lit N 0 0) in
      let rest := (lit N 0 0, lit N 0 0) in
      let sgn := lit N 1 0 in
      let '(u, rest, sgn) :=
        if leb N rz (lit N 5 (-1)) then
          let '(u, rest, sgn) :=
            if ltb N (lit N 1 0) nz then
              let lz := clog N (copp N z) in
              let u := copp N (clog1p N (cdiv_rc N (lit N (-1) 0) z)) in
              let rest := csub_cr N (cmul N (cmul_rc N (lit N (-5) (-1)) lz) lz) (PI * PI / (lit N 6 0)) in
              let sgn := lit N (-1) 0 in
              (u, rest, sgn)
            else
              let u := copp N (clog1p N (copp N z)) in
              let rest := (lit N 0 0, lit N 0 0) in
              let sgn := lit N 1 0 in
              (u, rest, sgn) in
          (u, rest, sgn)
        else
          let '(u, rest, sgn) :=
            if leb N nz ((lit N 2 0) * rz) then
              let u := copp N (clog N z) in
              let rest := cadd_cr N (cmul N u (clog1p N (copp N z))) (PI * PI / (lit N 6 0)) in
              let sgn := lit N (-1) 0 in
              (u, rest, sgn)
            else
              let lz := clog N (copp N z) in
              let u := copp N (clog1p N (cdiv_rc N (lit N (-1) 0) z)) in
              let rest := csub_cr N (cmul N (cmul_rc N (lit N (-5) (-1)) lz) lz) (PI * PI / (lit N 6 0)) in
              let sgn := lit N (-1) 0 in
              (u, rest, sgn) in
          (u, rest, sgn) in
      let u2 := cmul N u u in
      cadd N (cmul_rc N sgn (cadd N u (cmul N u2 (cadd_rc N (aref N cLi2_l_bf 0) (cmul N u (chorner N 1 u2 cLi2_l_bf)))))) rest.

(* src/cpp/Li2.cpp:447  array bf[23] *)
Definition cLi2_q_bf : list N := [
   (lit N (-1) 0) / (lit N 4 0);
   (lit N 1 0) / (lit N 36 0);
   (lit N (-1) 0) / (lit N 3600 0);
   (lit N 1 0) / (lit N 211680 0);
   (lit N (-1) 0) / (lit N 10886400 0);
   (lit N 1 0) / (lit N 526901760 0);
   lit N (-406476164514422552680590938629196667) (-46);
   lit N 892169102045645255521798731675274885 (-48);
   lit N (-199392958607210756872364434779378971) (-49);
   lit N 451898002961991819165047655285559323 (-51);
   lit N (-103565176121812470144834115422186567) (-52);
   lit N 239521862102618674574028374300098038 (-54);
   lit N (-558178587432500933628307450562541991) (-56);
   lit N 13091507554183212858123073991865923 (-56);
   lit N (-308741980242674029324227976486646243) (-59);
   lit N 731597565270220342035790560925214859 (-61);
   lit N (-174084565723400074098905514775970255) (-62);
   lit N 415763564461389971961789962077522667 (-64);
   lit N (-996214848828462210319400670245583885) (-66);
   lit N 239403442489616530052116798789374956 (-67);
   lit N (-576834735536739008429179316187765424) (-69);
   lit N 139317947964700797782788660391154833 (-70);
   lit N (-337212196548508947046847363525493096) (-72)
].

(* src/cpp/Li2.cpp:441-524 *)
Definition cLi2_q (z : cpx N) : cpx N :=
  let PI := lit N 314159265358979323846264338327950288 (-35) in
  let rz := fst z in
  let iz := snd z in
  if eqb N iz (lit N 0 0) then
    if leb N rz (lit N 1 0) then
      (Li2_q N rz, iz)
    else
      (Li2_q N rz, (opp N PI) * (nlog N rz))
  else
    let nz := cnorm N z in
    if ltb N nz (eps N) then
      cmul N z (cadd_rc N (lit N 1 0) (cmul_rc N (lit N 25 (-2)) z))
    else
      let u := (lit N 0 0, lit N 0 0) in
      let rest := (lit N 0 0, lit N 0 0) in
      let sgn := lit N 1 0 in
      let '(u, rest, sgn) :=
        if leb N rz (lit N 5 (-1)) then
          let '(u, rest, sgn) :=
            if ltb N (lit N 1 0) nz then
              let lz := clog N (copp N z) in
              let u := copp N (clog1p N (cdiv_rc N (lit N (-1) 0) z)) in
              let rest := csub_cr N (cmul N (cmul_rc N (lit N (-5) (-1)) lz) lz) (PI * PI / (lit N 6 0)) in
              let sgn := lit N (-1) 0 in
              (u, rest, sgn)
            else
              let u := copp N (clog1p N (copp N z)) in
              let rest := (lit N 0 0, lit N 0 0) in
              let sgn := lit N 1 0 in
              (u, rest, sgn) in
          (u, rest, sgn)
        else
          let '(u, rest, sgn) :=
            if leb N nz ((lit N 2 0) * rz) then
              let u := copp N (clog N z) in
              let rest := cadd_cr N (cmul N u (clog1p N (copp N z))) (PI * PI / (lit N 6 0)) in
              let sgn := lit N (-1) 0 in
              (u, rest, sgn)
            else
              let lz := clog N (copp N z) in
              let u := copp N (clog1p N (cdiv_rc N (lit N (-1) 0) z)) in
              let rest := csub_cr N (cmul N (cmul_rc N (lit N (-5) (-1)) lz) lz) (PI * PI / (lit N 6 0)) in
              let sgn := lit N (-1) 0 in
              (u, rest, sgn) in
          (u, rest, sgn) in
      let u2 := cmul N u u in
      cadd N (cmul_rc N sgn (cadd N u (cmul N u2 (cadd_rc N (aref N cLi2_q_bf 0) (cmul N u (chorner N 1 u2 cLi2_q_bf)))))) rest.

(* src/cpp/Li3.cpp:122  array bf[18] *)
Definition cLi3_d_bf : list N := [
   lit N 1 0;
   (lit N (-3) 0) / (lit N 8 0);
   (lit N 17 0) / (lit N 216 0);
   (lit N (-5) 0) / (lit N 576 0);
   lit N 12962962962962963 (-20);
   lit N 81018518518518519 (-21);
   lit N (-34193571608537595) (-22);
   lit N (-1328656462585034) (-21);
   lit N 86608717561098513 (-24);
   lit N 252608759553204 (-22);
   lit N (-21446944683640648) (-25);
   lit N (-51401106220129789) (-26);
   lit N 52495821146008294 (-27);
   lit N 10887754406636318 (-27);
   lit N (-12779396094493695) (-28);
   lit N (-23698241773087452) (-29);
   lit N 31043578879654623 (-30);
   lit N 52617586299125061 (-31)
].

(* src/cpp/Li3.cpp:158  array cs[7] *)
Definition cLi3_d_cs : list N := [
   lit N (-34722222222222222) (-19);
   lit N 11574074074074074 (-21);
   lit N (-98418997228521038) (-24);
   lit N 11482216343327454 (-25);
   lit N (-15815724990809166) (-27);
   lit N 24195009792525152 (-29);
   lit N (-39828977769894877) (-31)
].

(* src/cpp/Li3.cpp:117-196 *)
Definition cLi3_d (z : cpx N) : cpx N :=
  let PI := lit N 31415926535897932 (-16) in
  let zeta2 := lit N 16449340668482264 (-16) in
  let zeta3 := lit N 12020569031595943 (-16) in
  let rz := fst z in
  let iz := snd z in
  if eqb N iz (lit N 0 0) then
    if leb N rz (lit N 1 0) then
      (Li3_d N rz, iz)
    else
      let l := nlog N rz in
      (Li3_d N rz, (lit N (-5) (-1)) * PI * l * l)
  else
    let nz := cabs N z in
    let pz := carg N z in
    let lnz := nlog N nz in
    if ltb N (lnz * lnz + pz * pz) (lit N 1 0) then
      let u := (lnz, pz) in
      let u2 := cmul N u u in
      let u4 := cmul N u2 u2 in
      let u8 := cmul N u4 u4 in
      let c0 := cadd_rc N zeta3 (cmul N u (csub_rc N zeta2 (cdiv_cr N u2 (lit N 12 0)))) in
      let c1 := cmul_rc N (lit N 25 (-2)) (csub_rc N (lit N 3 0) (cmul_rc N (lit N 2 0) (pos_log N (copp N u)))) in
      cadd N (cadd N (cadd N (cadd N c0 (cmul N c1 u2)) (cmul N u4 (cadd_rc N (aref N cLi3_d_cs 0) (cmul_cr N u2 (aref N cLi3_d_cs 1))))) (cmul N u8 (cadd N (cadd_rc N (aref N cLi3_d_cs 2) (cmul_cr N u2 (aref N cLi3_d_cs 3))) (cmul N u4 (cadd_rc N (aref N cLi3_d_cs 4) (cmul_cr N u2 (aref N cLi3_d_cs 5))))))) (cmul_cr N (cmul N u8 u8) (aref N cLi3_d_cs 6))
    else
      let u := (lit N 0 0, lit N 0 0) in
      let rest := (lit N 0 0, lit N 0 0) in
      let '(u, rest) :=
        if leb N nz (lit N 1 0) then
          let u := copp N (clog1p N (copp N z)) in
          (u, rest)
        else
          let arg := if ltb N (lit N 0 0) pz then (pz - PI) else (pz + PI) in
          let lmz := (lnz, arg) in
          let u := copp N (clog1p N (cdiv_rc N (lit N (-1) 0) z)) in
          let rest := cmul N (copp N lmz) (cadd_cr N (cdiv_cr N (cmul N lmz lmz) (lit N 6 0)) zeta2) in
          (u, rest) in
      let u2 := cmul N u u in
      let u4 := cmul N u2 u2 in
      let u8 := cmul N u4 u4 in
      cadd N (cadd N (cadd N (cadd N (cadd N rest (cmul_cr N u (aref N cLi3_d_bf 0))) (cmul N u2 (cadd_rc N (aref N cLi3_d_bf 1) (cmul_cr N u (aref N cLi3_d_bf 2))))) (cmul N u4 (cadd N (cadd_rc N (aref N cLi3_d_bf 3) (cmul_cr N u (aref N cLi3_d_bf 4))) (cmul N u2 (cadd_rc N (aref N cLi3_d_bf 5) (cmul_cr N u (aref N cLi3_d_bf 6))))))) (cmul N u8 (cadd N (cadd N (cadd_rc N (aref N cLi3_d_bf 7) (cmul_cr N u (aref N cLi3_d_bf 8))) (cmul N u2 (cadd_rc N (aref N cLi3_d_bf 9) (cmul_cr N u (aref N cLi3_d_bf 10))))) (cmul N u4 (cadd N (cadd_rc N (aref N cLi3_d_bf 11) (cmul_cr N u (aref N cLi3_d_bf 12))) (cmul N u2 (cadd_rc N (aref N cLi3_d_bf 13) (cmul_cr N u (aref N cLi3_d_bf 14))))))))) (cmul N (cmul N u8 u8) (cadd N (cadd_rc N (aref N cLi3_d_bf 15) (cmul_cr N u (aref N cLi3_d_bf 16))) (cmul_cr N u2 (aref N cLi3_d_bf 17)))).

(* src/cpp/Li3.cpp:209  array bf[22] *)
Definition cLi3_l_bf : list N := [
   lit N 1 0;
   (lit N (-3) 0) / (lit N 8 0);
   (lit N 17 0) / (lit N 216 0);
   (lit N (-5) 0) / (lit N 576 0);
   (lit N 7 0) / (lit N 54000 0);
   (lit N 7 0) / (lit N 86400 0);
   lit N (-341935716085375949321527552820069827) (-41);
   lit N (-13286564625850340136054421768707483) (-40);
   lit N 866087175610985134794658604182413706 (-43);
   lit N 252608759553203997648442092886537331 (-43);
   lit N (-214469446836406476093388507573649032) (-44);
   lit N (-514011062201297891533581769272004962) (-45);
   lit N 524958211460082943639408880855807284 (-46);
   lit N 108877544066363183753729715704249107 (-46);
   lit N (-12779396094493695305581831754072212) (-46);
   lit N (-236982417730874520997977788101244891) (-48);
   lit N 310435788796546229428475327046556211 (-49);
   lit N 526175862991250608413183925112250061 (-50);
   lit N (-753847954994926536599250143226771028) (-51);
   lit N (-118623225777522852530825009512459322) (-51);
   lit N 183169799654913833820892731212815349 (-52);
   lit N 270681710318373501514907347126169436 (-53)
].

(* src/cpp/Li3.cpp:287  array cs[9] *)
Definition cLi3_l_cs : list N := [
   lit N (-347222222222222222222222222222222222) (-38);
   lit N 115740740740740740740740740740740741 (-40);
   lit N (-984189972285210380448475686570924666) (-43);
   lit N 114822163433274544385655496766607878 (-44);
   lit N (-158157249908091658933409775160616911) (-46);
   lit N 241950097925251519452732701564998016 (-48);
   lit N (-398289777698948774786517290926462002) (-50);
   lit N 69233666183059290580682095409506587 (-51);
   lit N (-125527223044997727545846570912655367) (-53)
].

(* src/cpp/Li3.cpp:204-327 *)
Definition cLi3_l (z : cpx N) : cpx N :=
  let PI := lit N 314159265358979323846264338327950288 (-35) in
  let zeta2 := lit N 164493406684822643647241516664602519 (-35) in
  let zeta3 := lit N 120205690315959428539973816151144999 (-35) in
  let rz := fst z in
  let iz := snd z in
  let k1 (_ : unit) :=
    let nz := cabs N z in
    let pz := carg N z in
    let lnz := nlog N nz in
    if ltb N (lnz * lnz + pz * pz) (lit N 1 0) then
      let u := (lnz, pz) in
      let u2 := cmul N u u in
      let c0 := cadd_rc N zeta3 (cmul N u (csub_rc N zeta2 (cdiv_cr N u2 (lit N 12 0)))) in
      let c1 := cmul_rc N (lit N 25 (-2)) (csub_rc N (lit N 3 0) (cmul_rc N (lit N 2 0) (pos_log N (copp N u)))) in
      cadd N c0 (cmul N u2 (cadd N c1 (cmul N u2 (chorner N 0 u2 cLi3_l_cs))))
    else
      let u := (lit N 0 0, lit N 0 0) in
      let rest := (lit N 0 0, lit N 0 0) in
      let '(u, rest) :=
        if leb N nz (lit N 1 0) then
          let u := copp N (clog1p N (copp N z)) in
          (u, rest)
        else
          let arg := if ltb N (lit N 0 0) pz then (pz - PI) else (pz + PI) in
          let lmz := (lnz, arg) in
          let u := copp N (clog1p N (cdiv_rc N (lit N (-1) 0) z)) in
          let rest := cmul N (copp N lmz) (cadd_cr N (cdiv_cr N (cmul N lmz lmz) (lit N 6 0)) zeta2) in
          (u, rest) in
      cadd N rest (cmul N u (chorner N 0 u cLi3_l_bf)) in
  if eqb N iz (lit N 0 0) then
    if eqb N rz (lit N 0 0) then
      (rz, iz)
    else if eqb N rz (lit N 1 0) then
      (zeta3, iz)
    else if eqb N rz (lit N (-1) 0) then
      ((lit N (-75) (-2)) * zeta3, iz)
    else if eqb N rz (lit N 5 (-1)) then
      (lit N 537213193608040200940623225594965827 (-36), iz)
    else
      k1 tt
  else
    k1 tt.

(* src/cpp/Li3.cpp:209  array bf[45] *)
Definition cLi3_q_bf : list N := [
   lit N 1 0;
   (lit N (-3) 0) / (lit N 8 0);
   (lit N 17 0) / (lit N 216 0);
   (lit N (-5) 0) / (lit N 576 0);
   (lit N 7 0) / (lit N 54000 0);
   (lit N 7 0) / (lit N 86400 0);
   lit N (-341935716085375949321527552820069827) (-41);
   lit N (-13286564625850340136054421768707483) (-40);
   lit N 866087175610985134794658604182413706 (-43);
   lit N 252608759553203997648442092886537331 (-43);
   lit N (-214469446836406476093388507573649032) (-44);
   lit N (-514011062201297891533581769272004962) (-45);
   lit N 524958211460082943639408880855807284 (-46);
   lit N 108877544066363183753729715704249107 (-46);
   lit N (-12779396094493695305581831754072212) (-46);
   lit N (-236982417730874520997977788101244891) (-48);
   lit N 310435788796546229428475327046556211 (-49);
   lit N 526175862991250608413183925112250061 (-50);
   lit N (-753847954994926536599250143226771028) (-51);
   lit N (-118623225777522852530825009512459322) (-51);
   lit N 183169799654913833820892731212815349 (-52);
   lit N 270681710318373501514907347126169436 (-53);
   lit N (-445543389782963882643263099217632212) (-54);
   lit N (-623754849225569465036532224739838641) (-55);
   lit N 108515215348745349131365609968642833 (-55);
   lit N 144911748660360819307349049665275324 (-56);
   lit N (-264663397544589903347408911861443741) (-57);
   lit N (-338976534885101047219258165860814078) (-58);
   lit N 646404773360331088903253098219534234 (-59);
   lit N 797583448960241242420922272590502795 (-60);
   lit N (-15809178790287483355921117629382677) (-59);
   lit N (-188614997296228681931102253988531956) (-61);
   lit N 387155366384184733039971271888313319 (-62);
   lit N 448011750023456073048653898320511684 (-63);
   lit N (-94930338719118361264175367602769915) (-63);
   lit N (-106828138090773812240182143033807908) (-64);
   lit N 233044789361030518600785199019281371 (-65);
   lit N 255607757265197540805635698286695865 (-66);
   lit N (-5727421606137259684472744580330571) (-65);
   lit N (-613471321379642358258549296897773326) (-68);
   lit N 1409080860406894484012686884894217 (-66);
   lit N 147642223976665341443182801167106626 (-69);
   lit N (-347010516489959160555004020312910903) (-70);
   lit N (-356210662409746357967357370318293608) (-71);
   lit N 855369656823692105754731289124468101 (-72)
].

(* src/cpp/Li3.cpp:287  array cs[20] *)
Definition cLi3_q_cs : list N := [
   lit N (-347222222222222222222222222222222222) (-38);
   lit N 115740740740740740740740740740740741 (-40);
   lit N (-984189972285210380448475686570924666) (-43);
   lit N 114822163433274544385655496766607878 (-44);
   lit N (-158157249908091658933409775160616911) (-46);
   lit N 241950097925251519452732701564998016 (-48);
   lit N (-398289777698948774786517290926462002) (-50);
   lit N 69233666183059290580682095409506587 (-51);
   lit N (-125527223044997727545846570912655367) (-53);
   lit N 235375400276846523056441171414060379 (-55);
   lit N (-45363989034586870184475070890170083) (-56);
   lit N 894516967039264316712031170773304472 (-59);
   lit N (-179828400469549627172020247141015426) (-60);
   lit N 367549976479373844433604733912674099 (-62);
   lit N (-762080797156479522953948500963765478) (-64);
   lit N 160004196436948597517376392257325602 (-65);
   lit N (-339676114756037558792312060520851852) (-67);
   lit N 728227228675776469531725636144432664 (-69);
   lit N (-157502264795800348718497893940378261) (-70);
   lit N 343354009248058933588797212016527038 (-72)
].

(* src/cpp/Li3.cpp:204-327 *)
Definition cLi3_q (z : cpx N) : cpx N :=
  let PI := lit N 314159265358979323846264338327950288 (-35) in
  let zeta2 := lit N 164493406684822643647241516664602519 (-35) in
  let zeta3 := lit N 120205690315959428539973816151144999 (-35) in
  let rz := fst z in
  let iz := snd z in
  let k1 (_ : unit) :=
    let nz := cabs N z in
    let pz := carg N z in
    let lnz := nlog N nz in
    if ltb N (lnz * lnz + pz * pz) (lit N 1 0) then
      let u := (lnz, pz) in
      let u2 := cmul N u u in
      let c0 := cadd_rc N zeta3 (cmul N u (csub_rc N zeta2 (cdiv_cr N u2 (lit N 12 0)))) in
      let c1 := cmul_rc N (lit N 25 (-2)) (csub_rc N (lit N 3 0) (cmul_rc N (lit N 2 0) (pos_log N (copp N u)))) in
      cadd N c0 (cmul N u2 (cadd N c1 (cmul N u2 (chorner N 0 u2 cLi3_q_cs))))
    else
      let u := (lit N 0 0, lit N 0 0) in
      let rest := (lit N 0 0, lit N 0 0) in
      let '(u, rest) :=
        if leb N nz (lit N 1 0) then
          let u := copp N (clog1p N (copp N z)) in
          (u, rest)
        else
          let arg := if ltb N (lit N 0 0) pz then (pz - PI) else (pz + PI) in
          let lmz := (lnz, arg) in
          let u := copp N (clog1p N (cdiv_rc N (lit N (-1) 0) z)) in
          let rest := cmul N (copp N lmz) (cadd_cr N (cdiv_cr N (cmul N lmz lmz) (lit N 6 0)) zeta2) in
          (u, rest) in
      cadd N rest (cmul N u (chorner N 0 u cLi3_q_bf)) in
  if eqb N iz (lit N 0 0) then
    if eqb N rz (lit N 0 0) then
      (rz, iz)
    else if eqb N rz (lit N 1 0) then
      (zeta3, iz)
    else if eqb N rz (lit N (-1) 0) then
      ((lit N (-75) (-2)) * zeta3, iz)
    else if eqb N rz (lit N 5 (-1)) then
      (lit N 537213193608040200940623225594965827 (-36), iz)
    else
      k1 tt
  else
    k1 tt.

(* src/cpp/Li4.cpp:175  array bf[18] *)
Definition cLi4_d_bf : list N := [
   lit N 1 0;
   (lit N (-7) 0) / (lit N 16 0);
   lit N 11651234567901235 (-17);
   lit N (-19820601851851852) (-18);
   lit N 19279320987654321 (-19);
   lit N (-31057098765432099) (-21);
   lit N (-15624009114857835) (-21);
   lit N 84851235467732066 (-23);
   lit N 22909616603189711 (-23);
   lit N (-21832614218526917) (-24);
   lit N (-38828248791720156) (-25);
   lit N 54462921032203321 (-26);
   lit N 69608052106827254 (-27);
   lit N (-13375737686445215) (-27);
   lit N (-12784852685266572) (-28);
   lit N 32605628580248922 (-29);
   lit N 23647571168618257 (-30);
   lit N (-79231351220311617) (-31)
].

(* src/cpp/Li4.cpp:209  array cs[7] *)
Definition cLi4_d_cs : list N := [
   lit N (-69444444444444444) (-20);
   lit N 16534391534391534 (-22);
   lit N (-10935444136502338) (-24);
   lit N 10438378493934049 (-26);
   lit N (-12165942300622435) (-28);
   lit N 16130006528350101 (-30);
   lit N (-2342881045287934) (-31)
].

(* src/cpp/Li4.cpp:169-248 *)
Definition cLi4_d (z : cpx N) : cpx N :=
  let PI := lit N 31415926535897932 (-16) in
  let PI2 := PI * PI in
  let PI4 := PI2 * PI2 in
  let zeta4 := lit N 10823232337111382 (-16) in
  let rz := fst z in
  let iz := snd z in
  if eqb N iz (lit N 0 0) then
    if leb N rz (lit N 1 0) then
      (Li4_d N rz, iz)
    else
      let l := nlog N rz in
      (Li4_d N rz, (lit N (-1) 0) / (lit N 6 0) * PI * l * l * l)
  else
    let nz := cabs N z in
    let pz := carg N z in
    let lnz := nlog N nz in
    if ltb N (lnz * lnz + pz * pz) (lit N 1 0) then
      let u := (lnz, pz) in
      let c1 := lit N 12020569031595943 (-16) in
      let c2 := lit N 82246703342411322 (-17) in
      let c3 := cdiv_cr N (csub_rc N ((lit N 11 0) / (lit N 6 0)) (pos_log N (copp N u))) (lit N 6 0) in
      let c4 := (lit N (-1) 0) / (lit N 48 0) in
      let u2 := cmul N u u in
      cadd N (cadd_rc N zeta4 (cmul N u2 (cadd_rc N c2 (cmul_cr N u2 c4)))) (cmul N u (cadd_rc N c1 (cmul N u2 (cadd N c3 (cmul N u2 (chorner N 0 u2 cLi4_d_cs))))))
    else
      let u := (lit N 0 0, lit N 0 0) in
      let rest := (lit N 0 0, lit N 0 0) in
      let sgn := lit N 1 0 in
      let '(u, rest, sgn) :=
        if leb N nz (lit N 1 0) then
          let u := copp N (clog1p N (copp N z)) in
          (u, rest, sgn)
        else
          let arg := if ltb N (lit N 0 0) pz then (pz - PI) else (pz + PI) in
          let lmz := (lnz, arg) in
          let lmz2 := cmul N lmz lmz in
          let u := copp N (clog1p N (cdiv_rc N (lit N (-1) 0) z)) in
          let rest := cmul_rc N ((lit N 1 0) / (lit N 360 0)) (cadd_rc N ((lit N (-7) 0) * PI4) (cmul N lmz2 (csub_rc N ((lit N (-30) 0) * PI2) (cmul_rc N (lit N 15 0) lmz2)))) in
          let sgn := lit N (-1) 0 in
          (u, rest, sgn) in
      let u2 := cmul N u u in
      let u4 := cmul N u2 u2 in
      let u8 := cmul N u4 u4 in
      cadd N rest (cmul_rc N sgn (cadd N (cadd N (cadd N (cadd N (cmul_cr N u (aref N cLi4_d_bf 0)) (cmul N u2 (cadd_rc N (aref N cLi4_d_bf 1) (cmul_cr N u (aref N cLi4_d_bf 2))))) (cmul N u4 (cadd N (cadd_rc N (aref N cLi4_d_bf 3) (cmul_cr N u (aref N cLi4_d_bf 4))) (cmul N u2 (cadd_rc N (aref N cLi4_d_bf 5) (cmul_cr N u (aref N cLi4_d_bf 6))))))) (cmul N u8 (cadd N (cadd N (cadd_rc N (aref N cLi4_d_bf 7) (cmul_cr N u (aref N cLi4_d_bf 8))) (cmul N u2 (cadd_rc N (aref N cLi4_d_bf 9) (cmul_cr N u (aref N cLi4_d_bf 10))))) (cmul N u4 (cadd N (cadd_rc N (aref N cLi4_d_bf 11) (cmul_cr N u (aref N cLi4_d_bf 12))) (cmul N u2 (cadd_rc N (aref N cLi4_d_bf 13) (cmul_cr N u (aref N cLi4_d_bf 14))))))))) (cmul N (cmul N u8 u8) (cadd N (cadd_rc N (aref N cLi4_d_bf 15) (cmul_cr N u (aref N cLi4_d_bf 16))) (cmul_cr N u2 (aref N cLi4_d_bf 17)))))).

(* src/cpp/Li4.cpp:262  array bf[22] *)
Definition cLi4_l_bf : list N := [
   lit N 1 0;
   (lit N (-7) 0) / (lit N 16 0);
   lit N 116512345679012345679012345679012346 (-36);
   lit N (-198206018518518518518518518518518519) (-37);
   lit N 19279320987654320987654320987654321 (-37);
   lit N (-310570987654320987654320987654320988) (-40);
   lit N (-156240091148578352983924736435264456) (-40);
   lit N 848512354677320663715221538350790051 (-42);
   lit N 229096166031897114453593835470042743 (-42);
   lit N (-218326142185269169396153523137650122) (-43);
   lit N (-388282487917201557228066203807765146) (-44);
   lit N 544629210322033211825798588082320063 (-45);
   lit N 69608052106827254078772334134120812 (-45);
   lit N (-133757376864452151995780722036345205) (-46);
   lit N (-1278485268526657160414624636157417) (-45);
   lit N 326056285802489224287884181782170918 (-48);
   lit N 236475711686182573623095048124390137 (-49);
   lit N (-792313512203116170242999007113724954) (-50);
   lit N (-434529157099841872504973716264753844) (-51);
   lit N 192362700625359201161268755267526042 (-51);
   lit N 781241433319595467072229389687370732 (-53);
   lit N (-467180384480365552031762824287222012) (-53)
].

(* src/cpp/Li4.cpp:337  array cs[8] *)
Definition cLi4_l_cs : list N := [
   lit N (-694444444444444444444444444444444444) (-39);
   lit N 165343915343915343915343915343915344 (-41);
   lit N (-109354441365023375605386187396769407) (-43);
   lit N 104383784939340494896050451606007162 (-45);
   lit N (-121659423006224353025699827046628393) (-47);
   lit N 161300065283501012968488467709998678 (-49);
   lit N (-234288104528793396933245465250860001) (-51);
   lit N 364387716752943634635168923207929405 (-53)
].

(* src/cpp/Li4.cpp:256-381 *)
Definition cLi4_l (z : cpx N) : cpx N :=
  let PI := lit N 314159265358979323846264338327950288 (-35) in
  let PI2 := PI * PI in
  let PI4 := PI2 * PI2 in
  let zeta4 := lit N 10823232337111381915160036965411679 (-34) in
  let rz := fst z in
  let iz := snd z in
  let k1 (_ : unit) :=
    let nz := cabs N z in
    let pz := carg N z in
    let lnz := nlog N nz in
    if ltb N (lnz * lnz + pz * pz) (lit N 1 0) then
      let u := (lnz, pz) in
      let c1 := lit N 120205690315959428539973816151144999 (-35) in
      let c2 := lit N 822467033424113218236207583323012595 (-36) in
      let c3 := cdiv_cr N (csub_rc N ((lit N 11 0) / (lit N 6 0)) (pos_log N (copp N u))) (lit N 6 0) in
      let c4 := (lit N (-1) 0) / (lit N 48 0) in
      let u2 := cmul N u u in
      cadd N (cadd_rc N zeta4 (cmul N u2 (cadd_rc N c2 (cmul_cr N u2 c4)))) (cmul N u (cadd_rc N c1 (cmul N u2 (cadd N c3 (cmul N u2 (chorner N 0 u2 cLi4_l_cs))))))
    else
      let u := (lit N 0 0, lit N 0 0) in
      let rest := (lit N 0 0, lit N 0 0) in
      let sgn := lit N 1 0 in
      let '(u, rest, sgn) :=
        if leb N nz (lit N 1 0) then
          let u := copp N (clog1p N (copp N z)) in
          (u, rest, sgn)
        else
          let arg := if ltb N (lit N 0 0) pz then (pz - PI) else (pz + PI) in
          let lmz := (lnz, arg) in
          let lmz2 := cmul N lmz lmz in
          let u := copp N (clog1p N (cdiv_rc N (lit N (-1) 0) z)) in
          let rest := cmul_rc N ((lit N 1 0) / (lit N 360 0)) (cadd_rc N ((lit N (-7) 0) * PI4) (cmul N lmz2 (csub_rc N ((lit N (-30) 0) * PI2) (cmul_rc N (lit N 15 0) lmz2)))) in
          let sgn := lit N (-1) 0 in
          (u, rest, sgn) in
      cadd N rest (cmul N (cmul_rc N sgn u) (chorner N 0 u cLi4_l_bf)) in
  if eqb N iz (lit N 0 0) then
    if eqb N rz (lit N 0 0) then
      (rz, iz)
    else if eqb N rz (lit N 1 0) then
      (zeta4, iz)
    else if eqb N rz (lit N (-1) 0) then
      ((lit N (-7) 0) * PI4 / (lit N 720 0), iz)
    else
      k1 tt
  else
    k1 tt.

(* src/cpp/Li4.cpp:262  array bf[45] *)
Definition cLi4_q_bf : list N := [
   lit N 1 0;
   (lit N (-7) 0) / (lit N 16 0);
   lit N 116512345679012345679012345679012346 (-36);
   lit N (-198206018518518518518518518518518519) (-37);
   lit N 19279320987654320987654320987654321 (-37);
   lit N (-310570987654320987654320987654320988) (-40);
   lit N (-156240091148578352983924736435264456) (-40);
   lit N 848512354677320663715221538350790051 (-42);
   lit N 229096166031897114453593835470042743 (-42);
   lit N (-218326142185269169396153523137650122) (-43);
   lit N (-388282487917201557228066203807765146) (-44);
   lit N 544629210322033211825798588082320063 (-45);
   lit N 69608052106827254078772334134120812 (-45);
   lit N (-133757376864452151995780722036345205) (-46);
   lit N (-1278485268526657160414624636157417) (-45);
   lit N 326056285802489224287884181782170918 (-48);
   lit N 236475711686182573623095048124390137 (-49);
   lit N (-792313512203116170242999007113724954) (-50);
   lit N (-434529157099841872504973716264753844) (-51);
   lit N 192362700625359201161268755267526042 (-51);
   lit N 781241433319595467072229389687370732 (-53);
   lit N (-467180384480365552031762824287222012) (-53);
   lit N (-134353443298128478562602226758937243) (-54);
   lit N 113568268513473432447646983759384846 (-54);
   lit N 211527562024325868475059834141917946 (-56);
   lit N (-27642026334746517388281729253731028) (-55);
   lit N (-270681766082400642561090595581950049) (-58);
   lit N 673720448286285721432671612656264303 (-58);
   lit N 132872654566838229758180090450125398 (-60);
   lit N (-16443773056367826467816763114888663) (-58);
   lit N 828360589993393411098296734003488096 (-62);
   lit N 401908484950693506997093150076214959 (-61);
   lit N (-457571384448487903823597343465369976) (-63);
   lit N (-983641090946151277583209749821167124) (-63);
   lit N 169003395560378510677295231219028521 (-64);
   lit N 241048055630598085046649041649017179 (-64);
   lit N (-542661270567141825013250340589290005) (-66);
   lit N (-591424295887417678643375999669283147) (-66);
   lit N 162321109010873707727111761439681785 (-67);
   lit N 145275954377402759461325873161579478 (-67);
   lit N (-465389937002573704417216829815072974) (-69);
   lit N (-357238626244413318154616242379067282) (-69);
   lit N 129761714880310295825962542732877943 (-70);
   lit N 879357407773938851103685229710271214 (-71);
   lit N (-354800202048240308911663975982519909) (-72)
].

(* src/cpp/Li4.cpp:337  array cs[19] *)
Definition cLi4_q_cs : list N := [
   lit N (-694444444444444444444444444444444444) (-39);
   lit N 165343915343915343915343915343915344 (-41);
   lit N (-109354441365023375605386187396769407) (-43);
   lit N 104383784939340494896050451606007162 (-45);
   lit N (-121659423006224353025699827046628393) (-47);
   lit N 161300065283501012968488467709998678 (-49);
   lit N (-234288104528793396933245465250860001) (-51);
   lit N 364387716752943634635168923207929405 (-53);
   lit N (-597748681166655845456412242441216036) (-55);
   lit N 102337130555150662198452683223504513 (-56);
   lit N (-181455956138347480737900283560680332) (-58);
   lit N 331302580384912709893344878064186841 (-60);
   lit N (-620097932653619404041449128072466986) (-62);
   lit N 118564508541733498204388623842798096 (-63);
   lit N (-230933574895902885743620757867807721) (-65);
   lit N 457154846962710278621075406449501719 (-67);
   lit N (-918043553394696104844086650056356358) (-69);
   lit N 186724930429686274238904009267803247 (-70);
   lit N (-384151865355610606630482668147264051) (-72)
].

(* src/cpp/Li4.cpp:256-381 *)
Definition cLi4_q (z : cpx N) : cpx N :=
  let PI := lit N 314159265358979323846264338327950288 (-35) in
  let PI2 := PI * PI in
  let PI4 := PI2 * PI2 in
  let zeta4 := lit N 10823232337111381915160036965411679 (-34) in
  let rz := fst z in
  let iz := snd z in
  let k1 (_ : unit) :=
    let nz := cabs N z in
    let pz := carg N z in
    let lnz := nlog N nz in
    if ltb N (lnz * lnz + pz * pz) (lit N 1 0) then
      let u := (lnz, pz) in
      let c1 := lit N 120205690315959428539973816151144999 (-35) in
      let c2 := lit N 822467033424113218236207583323012595 (-36) in
      let c3 := cdiv_cr N (csub_rc N ((lit N 11 0) / (lit N 6 0)) (pos_log N (copp N u))) (lit N 6 0) in
      let c4 := (lit N (-1) 0) / (lit N 48 0) in
      let u2 := cmul N u u in
      cadd N (cadd_rc N zeta4 (cmul N u2 (cadd_rc N c2 (cmul_cr N u2 c4)))) (cmul N u (cadd_rc N c1 (cmul N u2 (cadd N c3 (cmul N u2 (chorner N 0 u2 cLi4_q_cs))))))
    else
      let u := (lit N 0 0, lit N 0 0) in
      let rest := (lit N 0 0, lit N 0 0) in
      let sgn := lit N 1 0 in
      let '(u, rest, sgn) :=
        if leb N nz (lit N 1 0) then
          let u := copp N (clog1p N (copp N z)) in
          (u, rest, sgn)
        else
          let arg := if ltb N (lit N 0 0) pz then (pz - PI) else (pz + PI) in
          let lmz := (lnz, arg) in
          let lmz2 := cmul N lmz lmz in
          let u := copp N (clog1p N (cdiv_rc N (lit N (-1) 0) z)) in
          let rest := cmul_rc N ((lit N 1 0) / (lit N 360 0)) (cadd_rc N ((lit N (-7) 0) * PI4) (cmul N lmz2 (csub_rc N ((lit N (-30) 0) * PI2) (cmul_rc N (lit N 15 0) lmz2)))) in
          let sgn := lit N (-1) 0 in
          (u, rest, sgn) in
      cadd N rest (cmul N (cmul_rc N sgn u) (chorner N 0 u cLi4_q_bf)) in
  if eqb N iz (lit N 0 0) then
    if eqb N rz (lit N 0 0) then
      (rz, iz)
    else if eqb N rz (lit N 1 0) then
      (zeta4, iz)
    else if eqb N rz (lit N (-1) 0) then
      ((lit N (-7) 0) * PI4 / (lit N 720 0), iz)
    else
      k1 tt
  else
    k1 tt.

(* src/cpp/Li5.cpp:28  array bf[19] *)
Definition cLi5_d_bf : list N := [
   lit N 1 0;
   (lit N (-15) 0) / (lit N 32 0);
   lit N 13953189300411523 (-17);
   lit N (-2863377700617284) (-17);
   lit N 40317412551440329 (-19);
   lit N (-33985018004115226) (-20);
   lit N 45445184621617666 (-22);
   lit N 23916808048569012 (-22);
   lit N (-12762692600122747) (-23);
   lit N (-31628984306505932) (-24);
   lit N 32848118445335192 (-25);
   lit N 47613713995660579 (-26);
   lit N (-8084689817190983) (-26);
   lit N (-72387648587737207) (-28);
   lit N 19439760115173968 (-28);
   lit N 10256978405977236 (-29);
   lit N (-4618055100988483) (-29);
   lit N (-1153585719647058) (-30);
   lit N 10903545401333394 (-31)
].

(* src/cpp/Li5.cpp:68  array cs[6] *)
Definition cLi5_d_cs : list N := [
   lit N (-11574074074074074) (-20);
   lit N 20667989417989418 (-23);
   lit N (-10935444136502338) (-25);
   lit N 86986487449450412 (-28);
   lit N (-86899587861588824) (-30);
   lit N 10081254080218813 (-31)
].

(* src/cpp/Li5.cpp:22-105 *)
Definition cLi5_d (z : cpx N) : cpx N :=
  let PI := lit N 31415926535897932 (-16) in
  let PI2 := PI * PI in
  let PI4 := PI2 * PI2 in
  let zeta5 := lit N 10369277551433699 (-16) in
  let rz := fst z in
  let iz := snd z in
  let k1 (_ : unit) :=
    let nz := cabs N z in
    let pz := carg N z in
    let lnz := nlog N nz in
    if ltb N (lnz * lnz + pz * pz) (lit N 1 0) then
      let u := (lnz, pz) in
      let c0 := zeta5 in
      let c1 := lit N 10823232337111382 (-16) in
      let c2 := lit N 60102845157979714 (-17) in
      let c3 := lit N 27415567780803774 (-17) in
      let c4 := cdiv_cr N (csub_rc N ((lit N 25 0) / (lit N 12 0)) (pos_log N (copp N u))) (lit N 24 0) in
      let c5 := (lit N (-1) 0) / (lit N 240 0) in
      let u2 := cmul N u u in
      cadd N (cadd_rc N c0 (cmul_cr N u c1)) (cmul N u2 (cadd N (cadd_rc N c2 (cmul_cr N u c3)) (cmul N u2 (cadd N (cadd N c4 (cmul_cr N u c5)) (cmul N u2 (chorner N 0 u2 cLi5_d_cs))))))
    else
      let u := (lit N 0 0, lit N 0 0) in
      let rest := (lit N 0 0, lit N 0 0) in
      let '(u, rest) :=
        if leb N nz (lit N 1 0) then
          let u := copp N (clog1p N (copp N z)) in
          (u, rest)
        else
          let arg := if ltb N (lit N 0 0) pz then (pz - PI) else (pz + PI) in
          let lmz := (lnz, arg) in
          let lmz2 := cmul N lmz lmz in
          let u := copp N (clog1p N (cdiv_rc N (lit N (-1) 0) z)) in
          let rest := cmul N (cmul_rc N ((lit N (-1) 0) / (lit N 360 0)) lmz) (cadd_rc N ((lit N 7 0) * PI4) (cmul N lmz2 (cadd_rc N ((lit N 10 0) * PI2) (cmul_rc N (lit N 3 0) lmz2)))) in
          (u, rest) in
      let u2 := cmul N u u in
      let u4 := cmul N u2 u2 in
      let u8 := cmul N u4 u4 in
      cadd N (cadd N (cadd N (cadd N (cadd N rest (cmul_cr N u (aref N cLi5_d_bf 0))) (cmul N u2 (cadd_rc N (aref N cLi5_d_bf 1) (cmul_cr N u (aref N cLi5_d_bf 2))))) (cmul N u4 (cadd N (cadd_rc N (aref N cLi5_d_bf 3) (cmul_cr N u (aref N cLi5_d_bf 4))) (cmul N u2 (cadd_rc N (aref N cLi5_d_bf 5) (cmul_cr N u (aref N cLi5_d_bf 6))))))) (cmul N u8 (cadd N (cadd N (cadd_rc N (aref N cLi5_d_bf 7) (cmul_cr N u (aref N cLi5_d_bf 8))) (cmul N u2 (cadd_rc N (aref N cLi5_d_bf 9) (cmul_cr N u (aref N cLi5_d_bf 10))))) (cmul N u4 (cadd N (cadd_rc N (aref N cLi5_d_bf 11) (cmul_cr N u (aref N cLi5_d_bf 12))) (cmul N u2 (cadd_rc N (aref N cLi5_d_bf 13) (cmul_cr N u (aref N cLi5_d_bf 14))))))))) (cmul N (cmul N u8 u8) (cadd N (cadd_rc N (aref N cLi5_d_bf 15) (cmul_cr N u (aref N cLi5_d_bf 16))) (cmul N u2 (cadd_rc N (aref N cLi5_d_bf 17) (cmul_cr N u (aref N cLi5_d_bf 18)))))) in
  if eqb N iz (lit N 0 0) then
    if eqb N rz (lit N 0 0) then
      (rz, iz)
    else if eqb N rz (lit N 1 0) then
      (zeta5, iz)
    else if eqb N rz (lit N (-1) 0) then
      ((lit N (-15) 0) * zeta5 / (lit N 16 0), iz)
    else
      k1 tt
  else
    k1 tt.

(* src/cpp/Li5.cpp:119  array bf[21] *)
Definition cLi5_l_bf : list N := [
   lit N 1 0;
   (lit N (-15) 0) / (lit N 32 0);
   lit N 139531893004115226337448559670781893 (-36);
   lit N (-286337770061728395061728395061728395) (-37);
   lit N 403174125514403292181069958847736626 (-38);
   lit N (-33985018004115226337448559670781893) (-38);
   lit N 454451846216176664909446003743133026 (-41);
   lit N 239168080485690118829088702752453967 (-41);
   lit N (-127626926001227465885443518981747128) (-42);
   lit N (-316289843065059324402567872795470007) (-43);
   lit N 328481184453351916215185742384719818 (-44);
   lit N 476137139956605790483191328977324967 (-45);
   lit N (-80846898171909830256460260362331749) (-45);
   lit N (-72387648587737206946829215837589758) (-46);
   lit N 194397601151739684930556492093599766 (-47);
   lit N 102569784059772359718813559433198981 (-48);
   lit N (-461805510098848301805820862410656158) (-49);
   lit N (-115358571964705800368425114834190972) (-50);
   lit N 109035454013333939879770883809662643 (-50);
   lit N 231481363172925263940797103190091493 (-53);
   lit N (-256699170432652921943348919933966693) (-52)
].

(* src/cpp/Li5.cpp:196  array cs[7] *)
Definition cLi5_l_cs : list N := [
   lit N (-115740740740740740740740740740740741) (-39);
   lit N 20667989417989417989417989417989418 (-41);
   lit N (-109354441365023375605386187396769407) (-44);
   lit N 869864874494504124133753763383393013 (-47);
   lit N (-868995878615888235897855907475917096) (-49);
   lit N 100812540802188133105305292318749173 (-50);
   lit N (-130160058071551887185136369583811112) (-52)
].

(* src/cpp/Li5.cpp:113-239 *)
Definition cLi5_l (z : cpx N) : cpx N :=
  let PI := lit N 314159265358979323846264338327950288 (-35) in
  let PI2 := PI * PI in
  let PI4 := PI2 * PI2 in
  let zeta5 := lit N 103692775514336992633136548645703417 (-35) in
  let rz := fst z in
  let iz := snd z in
  let k1 (_ : unit) :=
    let nz := cabs N z in
    let pz := carg N z in
    let lnz := nlog N nz in
    if ltb N (lnz * lnz + pz * pz) (lit N 1 0) then
      let u := (lnz, pz) in
      let c0 := zeta5 in
      let c1 := lit N 10823232337111381915160036965411679 (-34) in
      let c2 := lit N 601028451579797142699869080755724995 (-36) in
      let c3 := lit N 274155677808037739412069194441004198 (-36) in
      let c4 := cdiv_cr N (csub_rc N ((lit N 25 0) / (lit N 12 0)) (pos_log N (copp N u))) (lit N 24 0) in
      let c5 := (lit N (-1) 0) / (lit N 240 0) in
      let u2 := cmul N u u in
      cadd N (cadd_rc N c0 (cmul_cr N u c1)) (cmul N u2 (cadd N (cadd_rc N c2 (cmul_cr N u c3)) (cmul N u2 (cadd N (cadd N c4 (cmul_cr N u c5)) (cmul N u2 (chorner N 0 u2 cLi5_l_cs))))))
    else
      let u := (lit N 0 0, lit N 0 0) in
      let rest := (lit N 0 0, lit N 0 0) in
      let '(u, rest) :=
        if leb N nz (lit N 1 0) then
          let u := copp N (clog1p N (copp N z)) in
          (u, rest)
        else
          let arg := if ltb N (lit N 0 0) pz then (pz - PI) else (pz + PI) in
          let lmz := (lnz, arg) in
          let lmz2 := cmul N lmz lmz in
          let u := copp N (clog1p N (cdiv_rc N (lit N (-1) 0) z)) in
          let rest := cmul N (cmul_rc N ((lit N (-1) 0) / (lit N 360 0)) lmz) (cadd_rc N ((lit N 7 0) * PI4) (cmul N lmz2 (cadd_rc N ((lit N 10 0) * PI2) (cmul_rc N (lit N 3 0) lmz2)))) in
          (u, rest) in
      cadd N rest (cmul N u (chorner N 0 u cLi5_l_bf)) in
  if eqb N iz (lit N 0 0) then
    if eqb N rz (lit N 0 0) then
      (rz, iz)
    else if eqb N rz (lit N 1 0) then
      (zeta5, iz)
    else if eqb N rz (lit N (-1) 0) then
      ((lit N (-15) 0) * zeta5 / (lit N 16 0), iz)
    else
      k1 tt
  else
    k1 tt.

(* src/cpp/Li5.cpp:119  array bf[45] *)
Definition cLi5_q_bf : list N := [
   lit N 1 0;
   (lit N (-15) 0) / (lit N 32 0);
   lit N 139531893004115226337448559670781893 (-36);
   lit N (-286337770061728395061728395061728395) (-37);
   lit N 403174125514403292181069958847736626 (-38);
   lit N (-33985018004115226337448559670781893) (-38);
   lit N 454451846216176664909446003743133026 (-41);
   lit N 239168080485690118829088702752453967 (-41);
   lit N (-127626926001227465885443518981747128) (-42);
   lit N (-316289843065059324402567872795470007) (-43);
   lit N 328481184453351916215185742384719818 (-44);
   lit N 476137139956605790483191328977324967 (-45);
   lit N (-80846898171909830256460260362331749) (-45);
   lit N (-72387648587737206946829215837589758) (-46);
   lit N 194397601151739684930556492093599766 (-47);
   lit N 102569784059772359718813559433198981 (-48);
   lit N (-461805510098848301805820862410656158) (-49);
   lit N (-115358571964705800368425114834190972) (-50);
   lit N 109035454013333939879770883809662643 (-50);
   lit N 231481363172925263940797103190091493 (-53);
   lit N (-256699170432652921943348919933966693) (-52);
   lit N 457086206073149690144959626860139115 (-54);
   lit N 60366779613205705882356103311410709 (-53);
   lit N (-216776249440624129587941717218396578) (-55);
   lit N (-14194096615600165298332266882011213) (-54);
   lit N 750200095064138625532377521619527234 (-57);
   lit N 333870453950783971643715159254469304 (-57);
   lit N (-230600404426203476825215151352586388) (-58);
   lit N (-78581732456894818904499064631502735) (-58);
   lit N 666834530437388085486513704613056895 (-60);
   lit N 185091565409252971894649796883651603 (-60);
   lit N (-185915294451740855841031840576364891) (-61);
   lit N (-436297464803458904472660817437095794) (-62);
   lit N 506110760995292844822634895878109349 (-63);
   lit N 102919182497568782037888979300008731 (-63);
   lit N (-135513912210183166156877853283041765) (-64);
   lit N (-242940596129573826559241540956570701) (-65);
   lit N 358519739665037052115164738053066333 (-66);
   lit N 573796581610397206400846538673280837 (-67);
   lit N (-940035936245687345352774520389480989) (-68);
   lit N (-135590280493486311500090284171223034) (-68);
   lit N 244784384191528918377859141748058708 (-69);
   lit N 320528849130720958124170712217928968 (-70);
   lit N (-63398387818525482796415237594217452) (-70);
   lit N (-757925545801218291534870941639851689) (-72)
].

(* src/cpp/Li5.cpp:196  array cs[18] *)
Definition cLi5_q_cs : list N := [
   lit N (-115740740740740740740740740740740741) (-39);
   lit N 20667989417989417989417989417989418 (-41);
   lit N (-109354441365023375605386187396769407) (-44);
   lit N 869864874494504124133753763383393013 (-47);
   lit N (-868995878615888235897855907475917096) (-49);
   lit N 100812540802188133105305292318749173 (-50);
   lit N (-130160058071551887185136369583811112) (-52);
   lit N 182193858376471817317584461603964703 (-54);
   lit N (-271703945984843566116551019291461834) (-56);
   lit N 426404710646461092493552846764602135 (-58);
   lit N (-697907523609028772068847244464155123) (-60);
   lit N 118322350137468824961908885022923872 (-61);
   lit N (-206699310884539801347149709357488995) (-63);
   lit N 370514089192917181888714449508744051 (-65);
   lit N (-679216396752655546304766934905316826) (-67);
   lit N 126987457489641744061409835124861589 (-68);
   lit N (-241590408788077922327391223699041147) (-70);
   lit N 466812326074215685597260023169508118 (-72)
].

(* src/cpp/Li5.cpp:113-239 *)
Definition cLi5_q (z : cpx N) : cpx N :=
  let PI := lit N 314159265358979323846264338327950288 (-35) in
  let PI2 := PI * PI in
  let PI4 := PI2 * PI2 in
  let zeta5 := lit N 103692775514336992633136548645703417 (-35) in
  let rz := fst z in
  let iz := snd z in
  let k1 (_ : unit) :=
    let nz := cabs N z in
    let pz := carg N z in
    let lnz := nlog N nz in
    if ltb N (lnz * lnz + pz * pz) (lit N 1 0) then
      let u := (lnz, pz) in
      let c0 := zeta5 in
      let c1 := lit N 10823232337111381915160036965411679 (-34) in
      let c2 := lit N 601028451579797142699869080755724995 (-36) in
      let c3 := lit N 274155677808037739412069194441004198 (-36) in
      let c4 := cdiv_cr N (csub_rc N ((lit N 25 0) / (lit N 12 0)) (pos_log N (copp N u))) (lit N 24 0) in
      let c5 := (lit N (-1) 0) / (lit N 240 0) in
      let u2 := cmul N u u in
      cadd N (cadd_rc N c0 (cmul_cr N u c1)) (cmul N u2 (cadd N (cadd_rc N c2 (cmul_cr N u c3)) (cmul N u2 (cadd N (cadd N c4 (cmul_cr N u c5)) (cmul N u2 (chorner N 0 u2 cLi5_q_cs))))))
    else
      let u := (lit N 0 0, lit N 0 0) in
      let rest := (lit N 0 0, lit N 0 0) in
      let '(u, rest) :=
        if leb N nz (lit N 1 0) then
          let u := copp N (clog1p N (copp N z)) in
          (u, rest)
        else
          let arg := if ltb N (lit N 0 0) pz then (pz - PI) else (pz + PI) in
          let lmz := (lnz, arg) in
          let lmz2 := cmul N lmz lmz in
          let u := copp N (clog1p N (cdiv_rc N (lit N (-1) 0) z)) in
          let rest := cmul N (cmul_rc N ((lit N (-1) 0) / (lit N 360 0)) lmz) (cadd_rc N ((lit N 7 0) * PI4) (cmul N lmz2 (cadd_rc N ((lit N 10 0) * PI2) (cmul_rc N (lit N 3 0) lmz2)))) in
          (u, rest) in
      cadd N rest (cmul N u (chorner N 0 u cLi5_q_bf)) in
  if eqb N iz (lit N 0 0) then
    if eqb N rz (lit N 0 0) then
      (rz, iz)
    else if eqb N rz (lit N 1 0) then
      (zeta5, iz)
    else if eqb N rz (lit N (-1) 0) then
      ((lit N (-15) 0) * zeta5 / (lit N 16 0), iz)
    else
      k1 tt
  else
    k1 tt.

(* src/cpp/Li6.cpp:29  array bf[18] *)
Definition cLi6_d_bf : list N := [
   lit N 1 0;
   (lit N (-31) 0) / (lit N 64 0);
   lit N 15241340877914952 (-17);
   lit N (-34365555877057613) (-18);
   lit N 57174797239368999 (-19);
   lit N (-68180453746570645) (-20);
   lit N 49960361948734493 (-21);
   lit N (-49166051196039048) (-23);
   lit N (-30632975161302164) (-23);
   lit N 14414599270849095 (-24);
   lit N 37272438230924107 (-25);
   lit N (-37300867345487607) (-26);
   lit N (-51246526816085832) (-27);
   lit N 90541930956636683 (-28);
   lit N 67381882615512517 (-29);
   lit N (-21215831150303135) (-29);
   lit N (-68408811719011698) (-31);
   lit N 48691178462005581 (-31)
].

(* src/cpp/Li6.cpp:69  array cs[5] *)
Definition cLi6_d_cs : list N := [
   lit N (-16534391534391534) (-21);
   lit N 22964432686654909 (-24);
   lit N (-99413128513657614) (-27);
   lit N 66912682653423394 (-29);
   lit N (-57933058574392549) (-31)
].

(* src/cpp/Li6.cpp:22-110 *)
Definition cLi6_d (z : cpx N) : cpx N :=
  let PI := lit N 31415926535897932 (-16) in
  let PI2 := PI * PI in
  let PI4 := PI2 * PI2 in
  let PI6 := PI2 * PI4 in
  let zeta6 := lit N 10173430619844491 (-16) in
  let rz := fst z in
  let iz := snd z in
  let k1 (_ : unit) :=
    let nz := cabs N z in
    let pz := carg N z in
    let lnz := nlog N nz in
    if ltb N (lnz * lnz + pz * pz) (lit N 1 0) then
      let u := (lnz, pz) in
      let c0 := zeta6 in
      let c1 := lit N 10369277551433699 (-16) in
      let c2 := lit N 5411616168555691 (-16) in
      let c3 := lit N 20034281719326571 (-17) in
      let c4 := lit N 68538919452009435 (-18) in
      let c5 := cdiv_cr N (csub_rc N ((lit N 137 0) / (lit N 60 0)) (pos_log N (copp N u))) (lit N 120 0) in
      let c6 := (lit N (-1) 0) / (lit N 1440 0) in
      let u2 := cmul N u u in
      cadd N (cadd_rc N c0 (cmul_cr N u c1)) (cmul N u2 (cadd N (cadd_rc N c2 (cmul_cr N u c3)) (cmul N u2 (cadd N (cadd_rc N c4 (cmul N u c5)) (cmul N u2 (cadd_rc N c6 (cmul N u (chorner N 0 u2 cLi6_d_cs))))))))
    else
      let u := (lit N 0 0, lit N 0 0) in
      let rest := (lit N 0 0, lit N 0 0) in
      let sgn := lit N 1 0 in
      let '(u, rest, sgn) :=
        if leb N nz (lit N 1 0) then
          let u := copp N (clog1p N (copp N z)) in
          (u, rest, sgn)
        else
          let arg := if ltb N (lit N 0 0) pz then (pz - PI) else (pz + PI) in
          let lmz := (lnz, arg) in
          let lmz2 := cmul N lmz lmz in
          let u := copp N (clog1p N (cdiv_rc N (lit N (-1) 0) z)) in
          let rest := cadd_rc N ((lit N (-31) 0) * PI6 / (lit N 15120 0)) (cmul N lmz2 (cadd_rc N ((lit N (-7) 0) / (lit N 720 0) * PI4) (cmul N lmz2 (csub_rc N ((lit N (-1) 0) / (lit N 144 0) * PI2) (cmul_rc N ((lit N 1 0) / (lit N 720 0)) lmz2))))) in
          let sgn := lit N (-1) 0 in
          (u, rest, sgn) in
      let u2 := cmul N u u in
      let u4 := cmul N u2 u2 in
      let u8 := cmul N u4 u4 in
      cadd N rest (cmul_rc N sgn (cadd N (cadd N (cadd N (cadd N (cmul_cr N u (aref N cLi6_d_bf 0)) (cmul N u2 (cadd_rc N (aref N cLi6_d_bf 1) (cmul_cr N u (aref N cLi6_d_bf 2))))) (cmul N u4 (cadd N (cadd_rc N (aref N cLi6_d_bf 3) (cmul_cr N u (aref N cLi6_d_bf 4))) (cmul N u2 (cadd_rc N (aref N cLi6_d_bf 5) (cmul_cr N u (aref N cLi6_d_bf 6))))))) (cmul N u8 (cadd N (cadd N (cadd_rc N (aref N cLi6_d_bf 7) (cmul_cr N u (aref N cLi6_d_bf 8))) (cmul N u2 (cadd_rc N (aref N cLi6_d_bf 9) (cmul_cr N u (aref N cLi6_d_bf 10))))) (cmul N u4 (cadd N (cadd_rc N (aref N cLi6_d_bf 11) (cmul_cr N u (aref N cLi6_d_bf 12))) (cmul N u2 (cadd_rc N (aref N cLi6_d_bf 13) (cmul_cr N u (aref N cLi6_d_bf 14))))))))) (cmul N (cmul N u8 u8) (cadd N (cadd_rc N (aref N cLi6_d_bf 15) (cmul_cr N u (aref N cLi6_d_bf 16))) (cmul_cr N u2 (aref N cLi6_d_bf 17)))))) in
  if eqb N iz (lit N 0 0) then
    if eqb N rz (lit N 0 0) then
      (rz, iz)
    else if eqb N rz (lit N 1 0) then
      (zeta6, iz)
    else if eqb N rz (lit N (-1) 0) then
      ((lit N (-31) 0) * zeta6 / (lit N 32 0), iz)
    else
      k1 tt
  else
    k1 tt.

(* src/cpp/Li6.cpp:125  array bf[22] *)
Definition cLi6_l_bf : list N := [
   lit N 1 0;
   (lit N (-31) 0) / (lit N 64 0);
   lit N 152413408779149519890260631001371742 (-36);
   lit N (-343655558770576131687242798353909465) (-37);
   lit N 571747972393689986282578875171467764 (-38);
   lit N (-681804537465706447187928669410150892) (-39);
   lit N 499603619487344931145170169621327906 (-40);
   lit N (-491660511960390477202530822164616726) (-42);
   lit N (-306329751613021637853530304310404212) (-42);
   lit N 144145992708490953612537421448012923 (-43);
   lit N 372724382309241065768599245664598825 (-44);
   lit N (-373008673454876072077977229159261141) (-45);
   lit N (-512465268160858324340087646115722592) (-46);
   lit N 905419309566366828868797447620893807 (-47);
   lit N 673818826155125170776107544938009482 (-48);
   lit N (-21215831150303135318527968929660953) (-47);
   lit N (-684088117190116976639204518781909079) (-50);
   lit N 486911784620055813206387586512917456 (-50);
   lit N (-48439878499872504165088964747315942) (-52);
   lit N (-110271048491074909370430302576046237) (-51);
   lit N 333537969169393816624889411840735964 (-53);
   lit N 247353074886413529791540987487137046 (-53)
].

(* src/cpp/Li6.cpp:203  array cs[6] *)
Definition cLi6_l_cs : list N := [
   lit N (-165343915343915343915343915343915344) (-40);
   lit N 229644326866549088771310993533215755 (-43);
   lit N (-994131285136576141867147158152449158) (-46);
   lit N 669126826534233941641349048756456164 (-48);
   lit N (-579330585743925490598570604983944731) (-50);
   lit N 593014945895224312384148778345583373 (-52)
].

(* src/cpp/Li6.cpp:118-250 *)
Definition cLi6_l (z : cpx N) : cpx N :=
  let PI := lit N 314159265358979323846264338327950288 (-35) in
  let PI2 := PI * PI in
  let PI4 := PI2 * PI2 in
  let PI6 := PI2 * PI4 in
  let zeta6 := lit N 101734306198444913971451792979092053 (-35) in
  let rz := fst z in
  let iz := snd z in
  let k1 (_ : unit) :=
    let nz := cabs N z in
    let pz := carg N z in
    let lnz := nlog N nz in
    if ltb N (lnz * lnz + pz * pz) (lit N 1 0) then
      let u := (lnz, pz) in
      let c0 := zeta6 in
      let c1 := lit N 103692775514336992633136548645703417 (-35) in
      let c2 := lit N 541161616855569095758001848270583951 (-36) in
      let c3 := lit N 200342817193265714233289693585241665 (-36) in
      let c4 := lit N 685389194520094348530172986102510496 (-37) in
      let c5 := cdiv_cr N (csub_rc N ((lit N 137 0) / (lit N 60 0)) (pos_log N (copp N u))) (lit N 120 0) in
      let c6 := (lit N (-1) 0) / (lit N 1440 0) in
      let u2 := cmul N u u in
      cadd N (cadd_rc N c0 (cmul_cr N u c1)) (cmul N u2 (cadd N (cadd_rc N c2 (cmul_cr N u c3)) (cmul N u2 (cadd N (cadd_rc N c4 (cmul N u c5)) (cmul N u2 (cadd_rc N c6 (cmul N u (chorner N 0 u2 cLi6_l_cs))))))))
    else
      let u := (lit N 0 0, lit N 0 0) in
      let rest := (lit N 0 0, lit N 0 0) in
      let sgn := lit N 1 0 in
      let '(u, rest, sgn) :=
        if leb N nz (lit N 1 0) then
          let u := copp N (clog1p N (copp N z)) in
          (u, rest, sgn)
        else
          let arg := if ltb N (lit N 0 0) pz then (pz - PI) else (pz + PI) in
          let lmz := (lnz, arg) in
          let lmz2 := cmul N lmz lmz in
          let u := copp N (clog1p N (cdiv_rc N (lit N (-1) 0) z)) in
          let rest := cadd_rc N ((lit N (-31) 0) * PI6 / (lit N 15120 0)) (cmul N lmz2 (cadd_rc N ((lit N (-7) 0) / (lit N 720 0) * PI4) (cmul N lmz2 (csub_rc N ((lit N (-1) 0) / (lit N 144 0) * PI2) (cmul_rc N ((lit N 1 0) / (lit N 720 0)) lmz2))))) in
          let sgn := lit N (-1) 0 in
          (u, rest, sgn) in
      cadd N rest (cmul N (cmul_rc N sgn u) (chorner N 0 u cLi6_l_bf)) in
  if eqb N iz (lit N 0 0) then
    if eqb N rz (lit N 0 0) then
      (rz, iz)
    else if eqb N rz (lit N 1 0) then
      (zeta6, iz)
    else if eqb N rz (lit N (-1) 0) then
      ((lit N (-31) 0) * zeta6 / (lit N 32 0), iz)
    else
      k1 tt
  else
    k1 tt.

(* src/cpp/Li6.cpp:125  array bf[45] *)
Definition cLi6_q_bf : list N := [
   lit N 1 0;
   (lit N (-31) 0) / (lit N 64 0);
   lit N 152413408779149519890260631001371742 (-36);
   lit N (-343655558770576131687242798353909465) (-37);
   lit N 571747972393689986282578875171467764 (-38);
   lit N (-681804537465706447187928669410150892) (-39);
   lit N 499603619487344931145170169621327906 (-40);
   lit N (-491660511960390477202530822164616726) (-42);
   lit N (-306329751613021637853530304310404212) (-42);
   lit N 144145992708490953612537421448012923 (-43);
   lit N 372724382309241065768599245664598825 (-44);
   lit N (-373008673454876072077977229159261141) (-45);
   lit N (-512465268160858324340087646115722592) (-46);
   lit N 905419309566366828868797447620893807 (-47);
   lit N 673818826155125170776107544938009482 (-48);
   lit N (-21215831150303135318527968929660953) (-47);
   lit N (-684088117190116976639204518781909079) (-50);
   lit N 486911784620055813206387586512917456 (-50);
   lit N (-48439878499872504165088964747315942) (-52);
   lit N (-110271048491074909370430302576046237) (-51);
   lit N 333537969169393816624889411840735964 (-53);
   lit N 247353074886413529791540987487137046 (-53);
   lit N (-143706164342324920216883687134737009) (-54);
   lit N (-550471103350981180614826435059791109) (-55);
   lit N 474677139173272249791309840662617185 (-56);
   lit N 121583871780681052243739817416294433 (-56);
   lit N (-141075524035618500414240309078008657) (-57);
   lit N (-266388312532683465965856437677118103) (-58);
   lit N 396676574286310079767900226081781935 (-59);
   lit N 578216973585436153112366193481125963 (-60);
   lit N (-107877780631642573172998876995922389) (-60);
   lit N (-124073970867569098990147736977589145) (-61);
   lit N 287041179178936017042609524684092346 (-62);
   lit N 26235553563029330616574752038360682 (-62);
   lit N (-752294854657541272615881214134337672) (-64);
   lit N (-544017883796246961820291930722306669) (-65);
   lit N 195025795325101663793862223381656999 (-65);
   lit N 109784942822051879961178213597012971 (-66);
   lit N (-501495835741630092074469585415763612) (-67);
   lit N (-21286737504392761053563380691739178) (-67);
   lit N 128159440165221259409319852281486752 (-68);
   lit N 38710844733047944162220456869760746 (-69);
   lit N (-325941253155837592741689642881678163) (-70);
   lit N (-625269198847740581093233860701356903) (-72);
   lit N 825794162051839801918004563317046685 (-72)
].

(* src/cpp/Li6.cpp:203  array cs[17] *)
Definition cLi6_q_cs : list N := [
   lit N (-165343915343915343915343915343915344) (-40);
   lit N 229644326866549088771310993533215755 (-43);
   lit N (-994131285136576141867147158152449158) (-46);
   lit N 669126826534233941641349048756456164 (-48);
   lit N (-579330585743925490598570604983944731) (-50);
   lit N 593014945895224312384148778345583373 (-52);
   lit N (-685052937218694143079665103072690062) (-54);
   lit N 867589801792722939607545055256974774 (-56);
   lit N (-118132150428192854833283051865852971) (-57);
   lit N 170561884258584436997421138705840854 (-59);
   lit N (-258484268003343989655128609060798194) (-61);
   lit N 408008103922306292972099603527323696 (-63);
   lit N (-666771970595289681764999062443512889) (-65);
   lit N 1122769967251264187541558937905285 (-64);
   lit N (-194061827643615870372790552830090522) (-68);
   lit N 343209344566599308274080635472598888 (-70);
   lit N (-619462586636097236736900573587284992) (-72)
].

(* src/cpp/Li6.cpp:118-250 *)
Definition cLi6_q (z : cpx N) : cpx N :=
  let PI := lit N 314159265358979323846264338327950288 (-35) in
  let PI2 := PI * PI in
  let PI4 := PI2 * PI2 in
  let PI6 := PI2 * PI4 in
  let zeta6 := lit N 101734306198444913971451792979092053 (-35) in
  let rz := fst z in
  let iz := snd z in
  let k1 (_ : unit) :=
    let nz := cabs N z in
    let pz := carg N z in
    let lnz := nlog N nz in
    if ltb N (lnz * lnz + pz * pz) (lit N 1 0) then
      let u := (lnz, pz) in
      let c0 := zeta6 in
      let c1 := lit N 103692775514336992633136548645703417 (-35) in
      let c2 := lit N 541161616855569095758001848270583951 (-36) in
      let c3 := lit N 200342817193265714233289693585241665 (-36) in
      let c4 := lit N 685389194520094348530172986102510496 (-37) in
      let c5 := cdiv_cr N (csub_rc N ((lit N 137 0) / (lit N 60 0)) (pos_log N (copp N u))) (lit N 120 0) in
      let c6 := (lit N (-1) 0) / (lit N 1440 0) in
      let u2 := cmul N u u in
      cadd N (cadd_rc N c0 (cmul_cr N u c1)) (cmul N u2 (cadd N (cadd_rc N c2 (cmul_cr N u c3)) (cmul N u2 (cadd N (cadd_rc N c4 (cmul N u c5)) (cmul N u2 (cadd_rc N c6 (cmul N u (chorner N 0 u2 cLi6_q_cs))))))))
    else
      let u := (lit N 0 0, lit N 0 0) in
      let rest := (lit N 0 0, lit N 0 0) in
      let sgn := lit N 1 0 in
      let '(u, rest, sgn) :=
        if leb N nz (lit N 1 0) then
          let u := copp N (clog1p N (copp N z)) in
          (u, rest, sgn)
        else
          let arg := if ltb N (lit N 0 0) pz then (pz - PI) else (pz + PI) in
          let lmz := (lnz, arg) in
          let lmz2 := cmul N lmz lmz in
          let u := copp N (clog1p N (cdiv_rc N (lit N (-1) 0) z)) in
          let rest := cadd_rc N ((lit N (-31) 0) * PI6 / (lit N 15120 0)) (cmul N lmz2 (cadd_rc N ((lit N (-7) 0) / (lit N 720 0) * PI4) (cmul N lmz2 (csub_rc N ((lit N (-1) 0) / (lit N 144 0) * PI2) (cmul_rc N ((lit N 1 0) / (lit N 720 0)) lmz2))))) in
          let sgn := lit N (-1) 0 in
          (u, rest, sgn) in
      cadd N rest (cmul N (cmul_rc N sgn u) (chorner N 0 u cLi6_q_bf)) in
  if eqb N iz (lit N 0 0) then
    if eqb N rz (lit N 0 0) then
      (rz, iz)
    else if eqb N rz (lit N 1 0) then
      (zeta6, iz)
    else if eqb N rz (lit N (-1) 0) then
      ((lit N (-31) 0) * zeta6 / (lit N 32 0), iz)
    else
      k1 tt
  else
    k1 tt.

End M.
