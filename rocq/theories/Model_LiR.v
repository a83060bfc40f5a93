(** * Model of the real polylogarithms Li2, Li3, Li4

    Transcribed from the C++ sources by tools/gen_models.py (expression by
    expression, with C++ precedence and associativity); every definition cites
    the lines it models.  Suffixes: _f float, _d double, _l long double with
    LDBL_DIG <= 18 (x87), _q long double with LDBL_DIG > 18 (quadruple). *)
From Coq Require Import ZArith List Bool.
From Verif Require Import Num.
Import ListNotations.
Local Open Scope Z_scope.

Section M.
Variable N : num.
Local Notation "x + y" := (add N x y).
Local Notation "x - y" := (sub N x y).
Local Notation "x * y" := (mul N x y).
Local Notation "x / y" := (div N x y).
Local Notation aref N c i := (Num.aref N c i%nat).
Local Notation chorner N k := (Num.chorner N k%nat).

(* src/cpp/Li2.cpp:29  array P[3] *)
Definition Li2_f_P : list N := [
   lit N 10000002 (-7);
   lit N (-780790946) (-9);
   lit N 648256871 (-10)
].

(* src/cpp/Li2.cpp:30  array Q[3] *)
Definition Li2_f_Q : list N := [
   lit N 1 0;
   lit N (-103077545) (-8);
   lit N 21121671 (-8)
].

(* src/cpp/Li2.cpp:26-76 *)
Definition Li2_f (x : car N) : car N :=
  let PI := lit N 314159265 (-8) in
  let y := lit N 0 0 in
  let r := lit N 0 0 in
  let s := lit N 1 0 in
  let k1 (y : car N) (r : car N) (s : car N) :=
    let y2 := y * y in
    let p := (aref N Li2_f_P 0) + y * (aref N Li2_f_P 1) + y2 * (aref N Li2_f_P 2) in
    let q := (aref N Li2_f_Q 0) + y * (aref N Li2_f_Q 1) + y2 * (aref N Li2_f_Q 2) in
    r + s * y * p / q in
  if ltb N x (lit N (-1) 0) then
    let l := nlog N ((lit N 1 0) - x) in
    let y := (lit N 1 0) / ((lit N 1 0) - x) in
    let r := (opp N PI) * PI / (lit N 6 0) + l * ((lit N 5 (-1)) * l - (nlog N (opp N x))) in
    let s := lit N 1 0 in
    k1 y r s
  else if eqb N x (lit N (-1) 0) then
    (opp N PI) * PI / (lit N 12 0)
  else if ltb N x (lit N 0 0) then
    let l := nlog1p N (opp N x) in
    let y := x / (x - (lit N 1 0)) in
    let r := (lit N (-5) (-1)) * l * l in
    let s := lit N (-1) 0 in
    k1 y r s
  else if eqb N x (lit N 0 0) then
    x
  else if ltb N x (lit N 5 (-1)) then
    let y := x in
    let r := lit N 0 0 in
    let s := lit N 1 0 in
    k1 y r s
  else if ltb N x (lit N 1 0) then
    let y := (lit N 1 0) - x in
    let r := PI * PI / (lit N 6 0) - (nlog N x) * (nlog1p N (opp N x)) in
    let s := lit N (-1) 0 in
    k1 y r s
  else if eqb N x (lit N 1 0) then
    PI * PI / (lit N 6 0)
  else
    let '(y, r, s) :=
      if ltb N x (lit N 2 0) then
        let l := nlog N x in
        let y := (lit N 1 0) - (lit N 1 0) / x in
        let r := PI * PI / (lit N 6 0) - l * ((nlog N y) + (lit N 5 (-1)) * l) in
        let s := lit N 1 0 in
        (y, r, s)
      else
        let l := nlog N x in
        let y := (lit N 1 0) / x in
        let r := PI * PI / (lit N 3 0) - (lit N 5 (-1)) * l * l in
        let s := lit N (-1) 0 in
        (y, r, s) in
    k1 y r s.

(* src/cpp/Li2.cpp:91  array P[6] *)
Definition Li2_d_P : list N := [
   lit N 9999999999999999502 (-19);
   lit N (-2688392681856542343) (-18);
   lit N 26477222699473109692 (-19);
   lit N (-11538559607887416355) (-19);
   lit N 20886077795020607837 (-20);
   lit N (-10859777134152463084) (-21)
].

(* src/cpp/Li2.cpp:99  array Q[7] *)
Definition Li2_d_Q : list N := [
   lit N 1 0;
   lit N (-29383926818565635485) (-19);
   lit N 32712093293018635389 (-19);
   lit N (-17076702173954289421) (-19);
   lit N 41596017228400603836 (-20);
   lit N (-39801343754084482956) (-21);
   lit N 82743668974466659035 (-23)
].

(* src/cpp/Li2.cpp:88-156 *)
Definition Li2_d (x : car N) : car N :=
  let PI := lit N 31415926535897932 (-16) in
  let y := lit N 0 0 in
  let r := lit N 0 0 in
  let s := lit N 1 0 in
  let k1 (y : car N) (r : car N) (s : car N) :=
    let y2 := y * y in
    let y4 := y2 * y2 in
    let p := (aref N Li2_d_P 0) + y * (aref N Li2_d_P 1) + y2 * ((aref N Li2_d_P 2) + y * (aref N Li2_d_P 3)) + y4 * ((aref N Li2_d_P 4) + y * (aref N Li2_d_P 5)) in
    let q := (aref N Li2_d_Q 0) + y * (aref N Li2_d_Q 1) + y2 * ((aref N Li2_d_Q 2) + y * (aref N Li2_d_Q 3)) + y4 * ((aref N Li2_d_Q 4) + y * (aref N Li2_d_Q 5) + y2 * (aref N Li2_d_Q 6)) in
    r + s * y * p / q in
  if ltb N x (lit N (-1) 0) then
    let l := nlog N ((lit N 1 0) - x) in
    let y := (lit N 1 0) / ((lit N 1 0) - x) in
    let r := (opp N PI) * PI / (lit N 6 0) + l * ((lit N 5 (-1)) * l - (nlog N (opp N x))) in
    let s := lit N 1 0 in
    k1 y r s
  else if eqb N x (lit N (-1) 0) then
    (opp N PI) * PI / (lit N 12 0)
  else if ltb N x (lit N 0 0) then
    let l := nlog1p N (opp N x) in
    let y := x / (x - (lit N 1 0)) in
    let r := (lit N (-5) (-1)) * l * l in
    let s := lit N (-1) 0 in
    k1 y r s
  else if eqb N x (lit N 0 0) then
    x
  else if ltb N x (lit N 5 (-1)) then
    let y := x in
    let r := lit N 0 0 in
    let s := lit N 1 0 in
    k1 y r s
  else if ltb N x (lit N 1 0) then
    let y := (lit N 1 0) - x in
    let r := PI * PI / (lit N 6 0) - (nlog N x) * (nlog1p N (opp N x)) in
    let s := lit N (-1) 0 in
    k1 y r s
  else if eqb N x (lit N 1 0) then
    PI * PI / (lit N 6 0)
  else
    let '(y, r, s) :=
      if ltb N x (lit N 2 0) then
        let l := nlog N x in
        let y := (lit N 1 0) - (lit N 1 0) / x in
        let r := PI * PI / (lit N 6 0) - l * ((nlog N y) + (lit N 5 (-1)) * l) in
        let s := lit N 1 0 in
        (y, r, s)
      else
        let l := nlog N x in
        let y := (lit N 1 0) / x in
        let r := PI * PI / (lit N 3 0) - (lit N 5 (-1)) * l * l in
        let s := lit N (-1) 0 in
        (y, r, s) in
    k1 y r s.

(* src/cpp/Li2.cpp:173  array P[9] *)
Definition Li2_l_P : list N := [
   lit N 10706105563309304276767353139512463 (-34);
   lit N (-525056559620492749887983310693176896) (-35);
   lit N 103934845791141763662532570563508185 (-34);
   lit N (-106275187429164237285280053453630651) (-34);
   lit N 595754800847361224707276004888482457 (-35);
   lit N (-178704147549824083632603474038547305) (-35);
   lit N 256952343145676978700222949739349644 (-36);
   lit N (-13323724812403449778931802695752644) (-36);
   lit N 791217309833196694976662068263629735 (-40)
].

(* src/cpp/Li2.cpp:184  array Q[9] *)
Definition Li2_l_Q : list N := [
   lit N 1 0;
   lit N (-520360694854541370154051736496901638) (-35);
   lit N 110984640257222420881180161591516337 (-34);
   lit N (-12499759086751451637446790387567793) (-33);
   lit N 797919868560471967115958363930214958 (-35);
   lit N (-287732383715218390800075864637472768) (-35);
   lit N 549210416881086355164851972523370137 (-36);
   lit N (-473366369162599860878254400521224717) (-37);
   lit N 123136575793833628711851523557950417 (-38)
].

(* src/cpp/Li2.cpp:168-281 *)
Definition Li2_l (x : car N) : car N :=
  let PI := lit N 314159265358979323846264338327950288 (-35) in
  let y := lit N 0 0 in
  let r := lit N 0 0 in
  let s := lit N 1 0 in
  let k1 (y : car N) (r : car N) (s : car N) :=
    let z := y - (lit N 25 (-2)) in
    let p := horner N z Li2_l_P in
    let q := horner N z Li2_l_Q in
    r + s * y * p / q in
  if ltb N x (lit N (-1) 0) then
    let l := nlog N ((lit N 1 0) - x) in
    let y := (lit N 1 0) / ((lit N 1 0) - x) in
    let r := (opp N PI) * PI / (lit N 6 0) + l * ((lit N 5 (-1)) * l - (nlog N (opp N x))) in
    let s := lit N 1 0 in
    k1 y r s
  else if eqb N x (lit N (-1) 0) then
    (opp N PI) * PI / (lit N 12 0)
  else if ltb N x (lit N 0 0) then
    let l := nlog1p N (opp N x) in
    let y := x / (x - (lit N 1 0)) in
    let r := (lit N (-5) (-1)) * l * l in
    let s := lit N (-1) 0 in
    k1 y r s
  else if eqb N x (lit N 0 0) then
    x
  else if ltb N x (lit N 5 (-1)) then
    let y := x in
    let r := lit N 0 0 in
    let s := lit N 1 0 in
    k1 y r s
  else if ltb N x (lit N 1 0) then
    let y := (lit N 1 0) - x in
    let r := PI * PI / (lit N 6 0) - (nlog N x) * (nlog1p N (opp N x)) in
    let s := lit N (-1) 0 in
    k1 y r s
  else if eqb N x (lit N 1 0) then
    PI * PI / (lit N 6 0)
  else
    let '(y, r, s) :=
      if ltb N x (lit N 2 0) then
        let l := nlog N x in
        let y := (lit N 1 0) - (lit N 1 0) / x in
        let r := PI * PI / (lit N 6 0) - l * ((nlog N y) + (lit N 5 (-1)) * l) in
        let s := lit N 1 0 in
        (y, r, s)
      else
        let l := nlog N x in
        let y := (lit N 1 0) / x in
        let r := PI * PI / (lit N 3 0) - (lit N 5 (-1)) * l * l in
        let s := lit N (-1) 0 in
        (y, r, s) in
    k1 y r s.

(* src/cpp/Li2.cpp:196  array P[17] *)
Definition Li2_q_P : list N := [
   lit N 10706105563309304276767353139512463033 (-37);
   lit N (-10976999936495889694316759019749736514) (-36);
   lit N 50926847456521671435598196295391041399 (-36);
   lit N (-14137651316583179225403308056234710093) (-35);
   lit N 26167438966024905838946321639772104746 (-35);
   lit N (-34058684964478756354428571563597134889) (-35);
   lit N 32038320769322335817541819891481680235 (-35);
   lit N (-22042602382067574460998180123431383994) (-35);
   lit N 11098617775200190748144566197068215051 (-35);
   lit N (-40511655788875306581280201485439376229) (-36);
   lit N 10505482055068989911823839054507173824 (-36);
   lit N (-18711701614474515075977773430379529915) (-37);
   lit N 21700009060344649725726270289240541652 (-38);
   lit N (-15030137964245010798524220531488795883) (-39);
   lit N 53441650657913964794668981233490297624 (-41);
   lit N (-70813883289232115572593407126124042503) (-43);
   lit N 9903774998345984320775601732982548652 (-45)
].

(* src/cpp/Li2.cpp:215  array Q[17] *)
Definition Li2_q_Q : list N := [
   lit N 1 0;
   lit N (-10552362671556327276432317611336360654) (-36);
   lit N 50559576537049301822461383847757604795 (-36);
   lit N (-14554341156550484644439941130107249144) (-35);
   lit N 28070530313005385434963768448877956414 (-35);
   lit N (-38295927403204227055447294669165437162) (-35);
   lit N 38034123327297619837621395664129395552 (-35);
   lit N (-27878320883603471098333035075019703189) (-35);
   lit N 15127204204944666467295435798726892255 (-35);
   lit N (-60401294167088266781532200159750431265) (-36);
   lit N 17480717870136655299932069333598290551 (-36);
   lit N (-35731199220918363429317367913920234597) (-37);
   lit N 49537900060585746351429453828993042241 (-38);
   lit N (-43750415383481013167382471956794084257) (-39);
   lit N 2223456841314107815863701709810948365 (-39);
   lit N (-54149527323164210917629185927908003034) (-42);
   lit N 41629116823949062782848730828350635143 (-44)
].

(* src/cpp/Li2.cpp:168-281 *)
Definition Li2_q (x : car N) : car N :=
  let PI := lit N 314159265358979323846264338327950288 (-35) in
  let y := lit N 0 0 in
  let r := lit N 0 0 in
  let s := lit N 1 0 in
  let k1 (y : car N) (r : car N) (s : car N) :=
    let z := y - (lit N 25 (-2)) in
    let p := horner N z Li2_q_P in
    let q := horner N z Li2_q_Q in
    r + s * y * p / q in
  if ltb N x (lit N (-1) 0) then
    let l := nlog N ((lit N 1 0) - x) in
    let y := (lit N 1 0) / ((lit N 1 0) - x) in
    let r := (opp N PI) * PI / (lit N 6 0) + l * ((lit N 5 (-1)) * l - (nlog N (opp N x))) in
    let s := lit N 1 0 in
    k1 y r s
  else if eqb N x (lit N (-1) 0) then
    (opp N PI) * PI / (lit N 12 0)
  else if ltb N x (lit N 0 0) then
    let l := nlog1p N (opp N x) in
    let y := x / (x - (lit N 1 0)) in
    let r := (lit N (-5) (-1)) * l * l in
    let s := lit N (-1) 0 in
    k1 y r s
  else if eqb N x (lit N 0 0) then
    x
  else if ltb N x (lit N 5 (-1)) then
    let y := x in
    let r := lit N 0 0 in
    let s := lit N 1 0 in
    k1 y r s
  else if ltb N x (lit N 1 0) then
    let y := (lit N 1 0) - x in
    let r := PI * PI / (lit N 6 0) - (nlog N x) * (nlog1p N (opp N x)) in
    let s := lit N (-1) 0 in
    k1 y r s
  else if eqb N x (lit N 1 0) then
    PI * PI / (lit N 6 0)
  else
    let '(y, r, s) :=
      if ltb N x (lit N 2 0) then
        let l := nlog N x in
        let y := (lit N 1 0) - (lit N 1 0) / x in
        let r := PI * PI / (lit N 6 0) - l * ((nlog N y) + (lit N 5 (-1)) * l) in
        let s := lit N 1 0 in
        (y, r, s)
      else
        let l := nlog N x in
        let y := (lit N 1 0) / x in
        let r := PI * PI / (lit N 3 0) - (lit N 5 (-1)) * l * l in
        let s := lit N (-1) 0 in
        (y, r, s) in
    k1 y r s.

(* src/cpp/Li3.cpp:21  array cp[6] *)
Definition li3_neg_cp : list N := [
   lit N 9999999999999999795 (-19);
   lit N (-20281801754117129576) (-19);
   lit N 1436402988756171854 (-18);
   lit N (-42240680435713030268) (-20);
   lit N 47296746450884096877 (-21);
   lit N (-13453536579918419568) (-22)
].

(* src/cpp/Li3.cpp:26  array cq[7] *)
Definition li3_neg_cq : list N := [
   lit N 1 0;
   lit N (-21531801754117049035) (-19);
   lit N 16685134736461140517 (-19);
   lit N (-5668485746458454431) (-19);
   lit N 81999463370623961084 (-21);
   lit N (-40756048502924149389) (-22);
   lit N 34316398489103212699 (-24)
].

(* src/cpp/Li3.cpp:19-41 *)
Definition li3_neg (x : car N) : car N :=
  let x2 := x * x in
  let x4 := x2 * x2 in
  let p := (aref N li3_neg_cp 0) + x * (aref N li3_neg_cp 1) + x2 * ((aref N li3_neg_cp 2) + x * (aref N li3_neg_cp 3)) + x4 * ((aref N li3_neg_cp 4) + x * (aref N li3_neg_cp 5)) in
  let q := (aref N li3_neg_cq 0) + x * (aref N li3_neg_cq 1) + x2 * ((aref N li3_neg_cq 2) + x * (aref N li3_neg_cq 3)) + x4 * ((aref N li3_neg_cq 4) + x * (aref N li3_neg_cq 5) + x2 * (aref N li3_neg_cq 6)) in
  x * p / q.

(* src/cpp/Li3.cpp:46  array cp[6] *)
Definition li3_pos_cp : list N := [
   lit N 9999999999999999893 (-19);
   lit N (-25224717303769789628) (-19);
   lit N 23204919140887894133 (-19);
   lit N (-93980973288965037869) (-20);
   lit N 15728950200990509052 (-20);
   lit N (-75485193983677071129) (-22)
].

(* src/cpp/Li3.cpp:51  array cq[7] *)
Definition li3_pos_cq : list N := [
   lit N 1 0;
   lit N (-26474717303769836244) (-19);
   lit N 26143888433492184741 (-19);
   lit N (-11841788297857667038) (-19);
   lit N 2418493852479365112 (-19);
   lit N (-18220900115898156346) (-21);
   lit N 24927971540017376759 (-23)
].

(* src/cpp/Li3.cpp:44-66 *)
Definition li3_pos (x : car N) : car N :=
  let x2 := x * x in
  let x4 := x2 * x2 in
  let p := (aref N li3_pos_cp 0) + x * (aref N li3_pos_cp 1) + x2 * ((aref N li3_pos_cp 2) + x * (aref N li3_pos_cp 3)) + x4 * ((aref N li3_pos_cp 4) + x * (aref N li3_pos_cp 5)) in
  let q := (aref N li3_pos_cq 0) + x * (aref N li3_pos_cq 1) + x2 * ((aref N li3_pos_cq 2) + x * (aref N li3_pos_cq 3)) + x4 * ((aref N li3_pos_cq 4) + x * (aref N li3_pos_cq 5) + x2 * (aref N li3_pos_cq 6)) in
  x * p / q.

(* src/cpp/Li3.cpp:76-109 *)
Definition Li3_d (x : car N) : car N :=
  let zeta2 := lit N 16449340668482264 (-16) in
  let zeta3 := lit N 12020569031595943 (-16) in
  if ltb N x (lit N (-1) 0) then
    let l := nlog N (opp N x) in
    (li3_neg ((lit N 1 0) / x)) - l * (zeta2 + (lit N 1 0) / (lit N 6 0) * l * l)
  else if eqb N x (lit N (-1) 0) then
    (lit N (-75) (-2)) * zeta3
  else if ltb N x (lit N 0 0) then
    li3_neg x
  else if eqb N x (lit N 0 0) then
    x
  else if ltb N x (lit N 5 (-1)) then
    li3_pos x
  else if eqb N x (lit N 5 (-1)) then
    lit N 5372131936080402 (-16)
  else if ltb N x (lit N 1 0) then
    let l := nlog N x in
    (opp N (li3_neg ((lit N 1 0) - (lit N 1 0) / x))) - (li3_pos ((lit N 1 0) - x)) + zeta3 + l * (zeta2 + l * ((lit N (-5) (-1)) * (nlog1p N (opp N x)) + (lit N 1 0) / (lit N 6 0) * l))
  else if eqb N x (lit N 1 0) then
    zeta3
  else if ltb N x (lit N 2 0) then
    let l := nlog N x in
    (opp N (li3_neg ((lit N 1 0) - x))) - (li3_pos ((lit N 1 0) - (lit N 1 0) / x)) + zeta3 + l * (zeta2 + l * ((lit N (-5) (-1)) * (nlog N (x - (lit N 1 0))) + (lit N 1 0) / (lit N 6 0) * l))
  else
    let l := nlog N x in
    (li3_pos ((lit N 1 0) / x)) + l * ((lit N 2 0) * zeta2 - (lit N 1 0) / (lit N 6 0) * l * l).

(* src/cpp/Li4.cpp:21  array cp[6] *)
Definition li4_neg_cp : list N := [
   lit N 9999999999999999952 (-19);
   lit N (-18532099956062184217) (-19);
   lit N 11937642574034898249 (-19);
   lit N (-31817912243893560382) (-20);
   lit N 32268284189261624841 (-21);
   lit N (-83773570305913850724) (-23)
].

(* src/cpp/Li4.cpp:26  array cq[7] *)
Definition li4_neg_cq : list N := [
   lit N 1 0;
   lit N (-19157099956062165688) (-19);
   lit N 13011504531166486419 (-19);
   lit N (-37975653506939627186) (-20);
   lit N 4582272399655878367 (-20);
   lit N (-18023912938765272341) (-22);
   lit N 10199621542882314929 (-24)
].

(* src/cpp/Li4.cpp:19-41 *)
Definition li4_neg (x : car N) : car N :=
  let x2 := x * x in
  let x4 := x2 * x2 in
  let p := (aref N li4_neg_cp 0) + x * (aref N li4_neg_cp 1) + x2 * ((aref N li4_neg_cp 2) + x * (aref N li4_neg_cp 3)) + x4 * ((aref N li4_neg_cp 4) + x * (aref N li4_neg_cp 5)) in
  let q := (aref N li4_neg_cq 0) + x * (aref N li4_neg_cq 1) + x2 * ((aref N li4_neg_cq 2) + x * (aref N li4_neg_cq 3)) + x4 * ((aref N li4_neg_cq 4) + x * (aref N li4_neg_cq 5) + x2 * (aref N li4_neg_cq 6)) in
  x * p / q.

(* src/cpp/Li4.cpp:46  array cp[6] *)
Definition li4_half_cp : list N := [
   lit N 10000000000000000414 (-19);
   lit N (-20588072418045364525) (-19);
   lit N 14713328756794826579 (-19);
   lit N (-42608608613069811474) (-20);
   lit N 4297508427885154315 (-20);
   lit N (-68314031819918920802) (-23)
].

(* src/cpp/Li4.cpp:51  array cq[6] *)
Definition li4_half_cq : list N := [
   lit N 1 0;
   lit N (-21213072418045207223) (-19);
   lit N 15915688992789175941 (-19);
   lit N (-50327641401677265813) (-20);
   lit N 61467217495127095177 (-21);
   lit N (-1906129428019328033) (-21)
].

(* src/cpp/Li4.cpp:44-65 *)
Definition li4_half (x : car N) : car N :=
  let x2 := x * x in
  let x4 := x2 * x2 in
  let p := (aref N li4_half_cp 0) + x * (aref N li4_half_cp 1) + x2 * ((aref N li4_half_cp 2) + x * (aref N li4_half_cp 3)) + x4 * ((aref N li4_half_cp 4) + x * (aref N li4_half_cp 5)) in
  let q := (aref N li4_half_cq 0) + x * (aref N li4_half_cq 1) + x2 * ((aref N li4_half_cq 2) + x * (aref N li4_half_cq 3)) + x4 * ((aref N li4_half_cq 4) + x * (aref N li4_half_cq 5)) in
  x * p / q.

(* src/cpp/Li4.cpp:70  array cp[7] *)
Definition li4_mid_cp : list N := [
   lit N 32009826406098890447 (-28);
   lit N 9999999463483757416 (-19);
   lit N (-29144851228299341318) (-19);
   lit N 31891031447462342009 (-19);
   lit N (-1600912515851111709) (-18);
   lit N 35397747039432351193 (-20);
   lit N (-25230024124741454735) (-21)
].

(* src/cpp/Li4.cpp:76  array cq[7] *)
Definition li4_mid_cq : list N := [
   lit N 1 0;
   lit N (-2976985524841148846) (-18);
   lit N 33628208295110572579 (-19);
   lit N (-17782471949702788393) (-19);
   lit N 43364007973198649921 (-20);
   lit N (-39535592340362510549) (-21);
   lit N 57373431535336755591 (-23)
].

(* src/cpp/Li4.cpp:68-91 *)
Definition li4_mid (x : car N) : car N :=
  let x2 := x * x in
  let x4 := x2 * x2 in
  let p := (aref N li4_mid_cp 0) + x * (aref N li4_mid_cp 1) + x2 * ((aref N li4_mid_cp 2) + x * (aref N li4_mid_cp 3)) + x4 * ((aref N li4_mid_cp 4) + x * (aref N li4_mid_cp 5) + x2 * (aref N li4_mid_cp 6)) in
  let q := (aref N li4_mid_cq 0) + x * (aref N li4_mid_cq 1) + x2 * ((aref N li4_mid_cq 2) + x * (aref N li4_mid_cq 3)) + x4 * ((aref N li4_mid_cq 4) + x * (aref N li4_mid_cq 5) + x2 * (aref N li4_mid_cq 6)) in
  p / q.

(* src/cpp/Li4.cpp:94-109 *)
Definition li4_one (x : car N) : car N :=
  let zeta2 := lit N 16449340668482264 (-16) in
  let zeta3 := lit N 12020569031595943 (-16) in
  let zeta4 := lit N 10823232337111382 (-16) in
  let l := nlog N x in
  let l2 := l * l in
  zeta4 + l * (zeta3 + l * ((lit N 5 (-1)) * zeta2 + l * ((lit N 11 0) / (lit N 36 0) - (lit N 1 0) / (lit N 6 0) * (nlog N (opp N l)) + l * ((lit N (-1) 0) / (lit N 48 0) + l * ((lit N (-1) 0) / (lit N 1440 0) + l2 * ((lit N 1 0) / (lit N 604800 0) - (lit N 1 0) / (lit N 91445760 0) * l2)))))).

(* src/cpp/Li4.cpp:119-161 *)
Definition Li4_d (x : car N) : car N :=
  let zeta2 := lit N 16449340668482264 (-16) in
  let zeta4 := lit N 10823232337111382 (-16) in
  let app := lit N 0 0 in
  let rest := lit N 0 0 in
  let sgn := lit N 1 0 in
  let k1 (x : car N) (rest : car N) (sgn : car N) :=
    let app :=
      if ltb N x (lit N 0 0) then
        let app := li4_neg x in
        app
      else
        let app :=
          if ltb N x (lit N 5 (-1)) then
            let app := li4_half x in
            app
          else
            let app :=
              if ltb N x (lit N 8 (-1)) then
                let app := li4_mid x in
                app
              else
                let app := li4_one x in
                app in
            app in
        app in
    rest + sgn * app in
  if ltb N x (lit N (-1) 0) then
    let l := nlog N (opp N x) in
    let l2 := l * l in
    let x := (lit N 1 0) / x in
    let rest := (lit N (-7) 0) / (lit N 4 0) * zeta4 + l2 * ((lit N (-5) (-1)) * zeta2 - (lit N 1 0) / (lit N 24 0) * l2) in
    let sgn := lit N (-1) 0 in
    k1 x rest sgn
  else if eqb N x (lit N (-1) 0) then
    (lit N (-7) 0) / (lit N 8 0) * zeta4
  else if eqb N x (lit N 0 0) then
    x
  else if ltb N x (lit N 1 0) then
    let rest := lit N 0 0 in
    let sgn := lit N 1 0 in
    k1 x rest sgn
  else if eqb N x (lit N 1 0) then
    zeta4
  else
    let l := nlog N x in
    let l2 := l * l in
    let x := (lit N 1 0) / x in
    let rest := (lit N 2 0) * zeta4 + l2 * (zeta2 - (lit N 1 0) / (lit N 24 0) * l2) in
    let sgn := lit N (-1) 0 in
    k1 x rest sgn.

End M.
