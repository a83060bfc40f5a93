(** * Model of Cl1.cpp .. Cl6.cpp

    Transcribed from the C++ sources by tools/gen_models.py (expression by
    expression, with C++ precedence and associativity); every definition cites
    the lines it models.  Suffixes: _f float, _d double, _l long double with
    LDBL_DIG <= 18 (x87), _q long double with LDBL_DIG > 18 (quadruple). *)
From Coq Require Import ZArith List Bool.
From Verif Require Import Num.
Import ListNotations.
Local Open Scope Z_scope.

Section M.
Variable N : num.
Local Notation "x + y" := (add N x y).
Local Notation "x - y" := (sub N x y).
Local Notation "x * y" := (mul N x y).
Local Notation "x / y" := (div N x y).
Local Notation aref N c i := (Num.aref N c i%nat).
Local Notation chorner N k := (Num.chorner N k%nat).

(* src/cpp/Cl1.cpp:19-43 *)
Definition Cl1_d (x : car N) : car N :=
  let PI := lit N 314159265358979324 (-17) in
  let PI2 := (lit N 2 0) * PI in
  let x :=
    if ltb N x (lit N 0 0) then
      let x := opp N x in
      x
    else
      x in
  let x :=
    if leb N PI2 x then
      let x := nfmod N x PI2 in
      x
    else
      x in
  let x :=
    if ltb N PI x then
      let p0 := lit N 628125 (-5) in
      let p1 := lit N 19353071795864769253 (-22) in
      let x := p0 - x + p1 in
      x
    else
      x in
  if eqb N x (lit N 0 0) then
    inf N
  else
    opp N (nlog N ((lit N 2 0) * (nsin N ((lit N 5 (-1)) * x)))).

(* src/cpp/Cl2.cpp:50  array P[4] *)
Definition Cl2_d_P : list N := [
   lit N 13888888888888889 (-18);
   lit N (-43286930203743071) (-20);
   lit N 32779814789973427 (-22);
   lit N (-36001540369575084) (-25)
].

(* src/cpp/Cl2.cpp:54  array Q[4] *)
Definition Cl2_d_Q : list N := [
   lit N 1 0;
   lit N (-36166589746694121) (-18);
   lit N 36015827281202639 (-20);
   lit N (-83646182842184428) (-23)
].

(* src/cpp/Cl2.cpp:65  array P[6] *)
Definition Cl2_d_P2 : list N := [
   lit N 64005702446195512 (-17);
   lit N (-20641655351338783) (-17);
   lit N 24175305223497718 (-18);
   lit N (-12355955287855728) (-19);
   lit N 25649833551291124 (-21);
   lit N (-1478382912877332) (-22)
].

(* src/cpp/Cl2.cpp:70  array Q[6] *)
Definition Cl2_d_Q2 : list N := [
   lit N 1 0;
   lit N (-25299102015666356) (-17);
   lit N 22148751048467057 (-18);
   lit N (-78183920462457496) (-20);
   lit N 9543254219631067 (-21);
   lit N (-18184302880448247) (-24)
].

(* src/cpp/Cl2.cpp:19-88 *)
Definition Cl2_d (x : car N) : car N :=
  let PI := lit N 314159265358979324 (-17) in
  let PI2 := (lit N 2 0) * PI in
  let PIH := PI / (lit N 2 0) in
  let PI28 := PI * PI / (lit N 8 0) in
  let sgn := lit N 1 0 in
  let '(x, sgn) :=
    if ltb N x (lit N 0 0) then
      let x := opp N x in
      let sgn := lit N (-1) 0 in
      (x, sgn)
    else
      (x, sgn) in
  let x :=
    if leb N PI2 x then
      let x := nfmod N x PI2 in
      x
    else
      x in
  let '(x, sgn) :=
    if ltb N PI x then
      let p0 := lit N 628125 (-5) in
      let p1 := lit N 19353071795864769253 (-22) in
      let x := p0 - x + p1 in
      let sgn := opp N sgn in
      (x, sgn)
    else
      (x, sgn) in
  if eqb N x (lit N 0 0) then
    x
  else if eqb N x PI then
    lit N 0 0
  else
    let h := lit N 0 0 in
    let h :=
      if ltb N x PIH then
        let y := x * x in
        let y2 := y * y in
        let p := (aref N Cl2_d_P 0) + y * (aref N Cl2_d_P 1) + y2 * ((aref N Cl2_d_P 2) + y * (aref N Cl2_d_P 3)) in
        let q := (aref N Cl2_d_Q 0) + y * (aref N Cl2_d_Q 1) + y2 * ((aref N Cl2_d_Q 2) + y * (aref N Cl2_d_Q 3)) in
        let h := x * ((lit N 1 0) - (nlog N x) + y * p / q) in
        h
      else
        let y := PI - x in
        let z := y * y - PI28 in
        let z2 := z * z in
        let z4 := z2 * z2 in
        let p := (aref N Cl2_d_P2 0) + z * (aref N Cl2_d_P2 1) + z2 * ((aref N Cl2_d_P2 2) + z * (aref N Cl2_d_P2 3)) + z4 * ((aref N Cl2_d_P2 4) + z * (aref N Cl2_d_P2 5)) in
        let q := (aref N Cl2_d_Q2 0) + z * (aref N Cl2_d_Q2 1) + z2 * ((aref N Cl2_d_Q2 2) + z * (aref N Cl2_d_Q2 3)) + z4 * ((aref N Cl2_d_Q2 4) + z * (aref N Cl2_d_Q2 5)) in
        let h := y * p / q in
        h in
    sgn * h.

(* src/cpp/Cl2.cpp:131  array P[9] *)
Definition Cl2_l_P : list N := [
   lit N 1397578291120963523206040867955323306427 (-41);
   lit N (-1352264019891065415863834380176236559873) (-42);
   lit N 5292882735889014643812912154970234565053 (-44);
   lit N (-1073753987723414895538739538414225390109) (-45);
   lit N 1200707648340635046555652744163248062266 (-47);
   lit N (-725285895271804468464064839166578392685) (-49);
   lit N 2140267450520462605982610727277758328875 (-52);
   lit N (-2396401118613241903411604342093433593468) (-55);
   lit N 4441828690926415235588391389499684215009 (-59)
].

(* src/cpp/Cl2.cpp:142  array Q[9] *)
Definition Cl2_l_Q : list N := [
   lit N 1 0;
   lit N (-1018694323414614410071369720193716012304) (-40);
   lit N 4248408782245281612900840467370146443889 (-42);
   lit N (-9337710301347963985908084056584187570954) (-44);
   lit N 1159379163193822053103946363960603543601 (-45);
   lit N (-8083352720393357000801675734774176899515) (-48);
   lit N 2949313240431512997069808854213308209519 (-50);
   lit N (-4742700419624204182400715964695278593777) (-53);
   lit N 2158380636740175386190809152807629331877 (-56)
].

(* src/cpp/Cl2.cpp:165  array P[13] *)
Definition Cl2_l_P2 : list N := [
   lit N 6400570244619551220929428522356830562481 (-40);
   lit N (-4651631624886004423703445967760673575997) (-40);
   lit N 1487130845262105644024901814213146749895 (-40);
   lit N (-2749665174801454303884783494225610407035) (-41);
   lit N 3251522465413666561950482170352156048203 (-42);
   lit N (-2567438381297475310848635518657180974512) (-43);
   lit N 1372076105130164861564020074178493529151 (-44);
   lit N (-4924179093673498700461153483531075799113) (-46);
   lit N 115326793603133744018238731316982839586 (-46);
   lit N (-1667578310677508029208023423625588832295) (-49);
   lit N 1348437292247918547169070120217729056878 (-51);
   lit N (-5052245092698477071447850656280954693011) (-54);
   lit N 5600638109466570497480415519182233229048 (-57)
].

(* src/cpp/Cl2.cpp:180  array Q[13] *)
Definition Cl2_l_Q2 : list N := [
   lit N 1 0;
   lit N (-6572465772185054284667746526549393897676) (-40);
   lit N 1886234634096976582977630140163583172173 (-40);
   lit N (-3103347567899737687117030083178445406132) (-41);
   lit N 3230860399291224478336071920154030050234 (-42);
   lit N (-2216546569335921728108984951507368387512) (-43);
   lit N 1011949972138985643994631167412420906088 (-44);
   lit N (-3033400935206767852937290458763547850384) (-46);
   lit N 574845461196484305764402346869123192969 (-47);
   lit N (-6408350048413952604351408631173781906861) (-50);
   lit N 3678584366662951864267349037579031493395 (-52);
   lit N (-8240439699357036167611014086997683837396) (-55);
   lit N 3041049046123062158788159773779755292771 (-58)
].

(* src/cpp/Cl2.cpp:100-211 *)
Definition Cl2_l (x : car N) : car N :=
  let PI := lit N 314159265358979323846264338327950288 (-35) in
  let PI2 := (lit N 2 0) * PI in
  let PIH := PI / (lit N 2 0) in
  let PI28 := PI * PI / (lit N 8 0) in
  let sgn := lit N 1 0 in
  let '(x, sgn) :=
    if ltb N x (lit N 0 0) then
      let x := opp N x in
      let sgn := lit N (-1) 0 in
      (x, sgn)
    else
      (x, sgn) in
  let x :=
    if leb N PI2 x then
      let x := nfmod N x PI2 in
      x
    else
      x in
  let '(x, sgn) :=
    if ltb N PI x then
      let p0 := lit N 628125 (-5) in
      let p1 := lit N 19353071795864769252867665590057683943 (-40) in
      let x := p0 - x + p1 in
      let sgn := opp N sgn in
      (x, sgn)
    else
      (x, sgn) in
  if eqb N x (lit N 0 0) then
    x
  else if eqb N x PI then
    lit N 0 0
  else
    let h := lit N 0 0 in
    let h :=
      if ltb N x PIH then
        let y := x * x in
        let z := y - PI28 in
        let z2 := z * z in
        let z4 := z2 * z2 in
        let z8 := z4 * z4 in
        let p := (aref N Cl2_l_P 0) + z * (aref N Cl2_l_P 1) + z2 * ((aref N Cl2_l_P 2) + z * (aref N Cl2_l_P 3)) + z4 * ((aref N Cl2_l_P 4) + z * (aref N Cl2_l_P 5) + z2 * ((aref N Cl2_l_P 6) + z * (aref N Cl2_l_P 7))) + z8 * (aref N Cl2_l_P 8) in
        let q := (aref N Cl2_l_Q 0) + z * (aref N Cl2_l_Q 1) + z2 * ((aref N Cl2_l_Q 2) + z * (aref N Cl2_l_Q 3)) + z4 * ((aref N Cl2_l_Q 4) + z * (aref N Cl2_l_Q 5) + z2 * ((aref N Cl2_l_Q 6) + z * (aref N Cl2_l_Q 7))) + z8 * (aref N Cl2_l_Q 8) in
        let h := x * ((lit N 1 0) - (nlog N x) + y * p / q) in
        h
      else
        let y := PI - x in
        let z := y * y - PI28 in
        let z2 := z * z in
        let z4 := z2 * z2 in
        let z8 := z4 * z4 in
        let p := (aref N Cl2_l_P2 0) + z * (aref N Cl2_l_P2 1) + z2 * ((aref N Cl2_l_P2 2) + z * (aref N Cl2_l_P2 3)) + z4 * ((aref N Cl2_l_P2 4) + z * (aref N Cl2_l_P2 5) + z2 * ((aref N Cl2_l_P2 6) + z * (aref N Cl2_l_P2 7))) + z8 * ((aref N Cl2_l_P2 8) + z * (aref N Cl2_l_P2 9) + z2 * ((aref N Cl2_l_P2 10) + z * (aref N Cl2_l_P2 11)) + z4 * (aref N Cl2_l_P2 12)) in
        let q := (aref N Cl2_l_Q2 0) + z * (aref N Cl2_l_Q2 1) + z2 * ((aref N Cl2_l_Q2 2) + z * (aref N Cl2_l_Q2 3)) + z4 * ((aref N Cl2_l_Q2 4) + z * (aref N Cl2_l_Q2 5) + z2 * ((aref N Cl2_l_Q2 6) + z * (aref N Cl2_l_Q2 7))) + z8 * ((aref N Cl2_l_Q2 8) + z * (aref N Cl2_l_Q2 9) + z2 * ((aref N Cl2_l_Q2 10) + z * (aref N Cl2_l_Q2 11)) + z4 * (aref N Cl2_l_Q2 12)) in
        let h := y * p / q in
        h in
    sgn * h.

(* src/cpp/Cl3.cpp:46  array P[4] *)
Definition Cl3_d_P : list N := [
   lit N (-75000000000000001) (-17);
   lit N 15707637881835541 (-18);
   lit N (-35426736843494423) (-21);
   lit N (-24408931585123682) (-23)
].

(* src/cpp/Cl3.cpp:50  array Q[4] *)
Definition Cl3_d_Q : list N := [
   lit N 1 0;
   lit N (-25573146805410089) (-18);
   lit N 1501977485307505 (-19);
   lit N (-10648552418111624) (-23)
].

(* src/cpp/Cl3.cpp:60  array P[6] *)
Definition Cl3_d_P2 : list N := [
   lit N (-49017024647634973) (-17);
   lit N 4155915522466094 (-16);
   lit N (-79425531417806701) (-18);
   lit N 59420152260602943 (-19);
   lit N (-1830222716354019) (-19);
   lit N 18027408929418533 (-22)
].

(* src/cpp/Cl3.cpp:65  array Q[6] *)
Definition Cl3_d_Q2 : list N := [
   lit N 1 0;
   lit N (-19495887541644712) (-17);
   lit N 12059410236484074 (-18);
   lit N (-2523588946730162) (-19);
   lit N 10199322763377861 (-22);
   lit N 19612106499469264 (-25)
].

(* src/cpp/Cl3.cpp:19-82 *)
Definition Cl3_d (x : car N) : car N :=
  let PI := lit N 314159265358979324 (-17) in
  let PI2 := (lit N 2 0) * PI in
  let PIH := PI / (lit N 2 0) in
  let PI28 := PI * PI / (lit N 8 0) in
  let zeta3 := lit N 12020569031595943 (-16) in
  let x :=
    if ltb N x (lit N 0 0) then
      let x := opp N x in
      x
    else
      x in
  let x :=
    if leb N PI2 x then
      let x := nfmod N x PI2 in
      x
    else
      x in
  let x :=
    if ltb N PI x then
      let p0 := lit N 628125 (-5) in
      let p1 := lit N 19353071795864769253 (-22) in
      let x := p0 - x + p1 in
      x
    else
      x in
  if eqb N x (lit N 0 0) then
    zeta3
  else
    let h := lit N 0 0 in
    let h :=
      if ltb N x PIH then
        let y := x * x in
        let y2 := y * y in
        let p := (aref N Cl3_d_P 0) + y * (aref N Cl3_d_P 1) + y2 * ((aref N Cl3_d_P 2) + y * (aref N Cl3_d_P 3)) in
        let q := (aref N Cl3_d_Q 0) + y * (aref N Cl3_d_Q 1) + y2 * ((aref N Cl3_d_Q 2) + y * (aref N Cl3_d_Q 3)) in
        let h := zeta3 + y * (p / q + (lit N 5 (-1)) * (nlog N x)) in
        h
      else
        let y := PI - x in
        let z := y * y - PI28 in
        let z2 := z * z in
        let z4 := z2 * z2 in
        let p := (aref N Cl3_d_P2 0) + z * (aref N Cl3_d_P2 1) + z2 * ((aref N Cl3_d_P2 2) + z * (aref N Cl3_d_P2 3)) + z4 * ((aref N Cl3_d_P2 4) + z * (aref N Cl3_d_P2 5)) in
        let q := (aref N Cl3_d_Q2 0) + z * (aref N Cl3_d_Q2 1) + z2 * ((aref N Cl3_d_Q2 2) + z * (aref N Cl3_d_Q2 3)) + z4 * ((aref N Cl3_d_Q2 4) + z * (aref N Cl3_d_Q2 5)) in
        let h := p / q in
        h in
    h.

(* src/cpp/Cl3.cpp:118  array P[9] *)
Definition Cl3_l_P : list N := [
   lit N (-7543014859124236086513359303676733979191) (-40);
   lit N 6402301836868117230156416581268033099875 (-41);
   lit N (-2127896098530218208963041584986434591351) (-42);
   lit N 346316573118235770518327954080878215212 (-43);
   lit N (-2754862729116033380287404534774919686497) (-46);
   lit N 8052538909862304289974104174276673516832 (-49);
   lit N 1346114649676610056675054469405688579693 (-51);
   lit N (-9624573206929882592200009480606020302094) (-54);
   lit N 8275206821858140239162250779757575466957 (-57)
].

(* src/cpp/Cl3.cpp:129  array Q[9] *)
Definition Cl3_l_Q : list N := [
   lit N 1 0;
   lit N (-8951892304715004068142060061380434166813) (-41);
   lit N 3220693717342225233144437822487371940443 (-42);
   lit N (-5958192714621426181787114562889325229941) (-44);
   lit N 6014846196895560469030445734629791881016 (-46);
   lit N (-3236076181461994705051496031602571907271) (-48);
   lit N 8340438662048507021623726184074556662658 (-51);
   lit N (-7892956808623089379250167198187183753861) (-54);
   lit N 1129224149808716947279552120998699589829 (-57)
].

(* src/cpp/Cl3.cpp:152  array P[23] *)
Definition Cl3_l_P2 : list N := [
   lit N (-4901702464763497295023867883920487195585) (-40);
   lit N 1383627100551763417738051599449773818178 (-39);
   lit N (-1844002682148364621305380083013461847933) (-39);
   lit N 1563880808732850065996446127297492925273 (-39);
   lit N (-9527454451278452672142805742734474223237) (-40);
   lit N 444430450911701544225328973330896107777 (-39);
   lit N (-1647875030685306314220378800538115071507) (-40);
   lit N 4967825071601030726970818647842992410835 (-41);
   lit N (-1233860796084952133261104412894436518532) (-41);
   lit N 254127903826690898751667493180368313191 (-41);
   lit N (-4345955367166196341753615932772484893528) (-43);
   lit N 6151865219319515057283373610462827653393 (-44);
   lit N (-7156818018509654192384040775515653410043) (-45);
   lit N 6767889054848634496309672687089961659404 (-46);
   lit N (-5125309226510821380097226378219650957199) (-47);
   lit N 304885953785697263557781326421534768207 (-47);
   lit N (-1389976271585941361238252210621219258086) (-49);
   lit N 4704164267289991379740337499442804533393 (-51);
   lit N (-113234267009221667681370297710198816817) (-51);
   lit N 1824345098049373687569378456747139377638 (-54);
   lit N (-179164145477780711494835714200786785793) (-55);
   lit N 9108765355959209109895175829397816299966 (-59);
   lit N (-1660401736402055166724718838052384514483) (-61)
].

(* src/cpp/Cl3.cpp:177  array Q[23] *)
Definition Cl3_l_Q2 : list N := [
   lit N 1 0;
   lit N (-2169855465456334109398757427681231252557) (-39);
   lit N 2322591192513290976964726281913672818074 (-39);
   lit N (-1625275527588871360012554245669893880287) (-39);
   lit N 8307827568524387115453112563337808771609 (-40);
   lit N (-3283520342971423622595752570043633453066) (-40);
   lit N 1036112385177655663181226022787541960128 (-40);
   lit N (-2658049675854302301943410969110308213449) (-41);
   lit N 5594232916811019674312451829387056772971 (-42);
   lit N (-9682117420514440669170644446720530951119) (-43);
   lit N 1373775076479943342597652514135717056402 (-43);
   lit N (-1585377827830451443222728940538258932617) (-44);
   lit N 1469487119911154060364041910223012615302 (-45);
   lit N (-1075235400618754592467376790070172663512) (-46);
   lit N 6072406717259994215240055677751661462408 (-48);
   lit N (-257131883916690843025432284949511567215) (-48);
   lit N 7860204435599274911316716981969539571217 (-51);
   lit N (-1647194263529074575838983448164465153777) (-52);
   lit N 2194513208755261829948257460166939183883 (-54);
   lit N (-1645669178927884807010050119309005828655) (-56);
   lit N 5496854459511181731052565995680338061501 (-59);
   lit N (-4060391001681163801807157030538815464753) (-62);
   lit N (-1500455700173452211389785169624351996026) (-65)
].

(* src/cpp/Cl3.cpp:91-224 *)
Definition Cl3_l (x : car N) : car N :=
  let PI := lit N 314159265358979323846264338327950288 (-35) in
  let PI2 := (lit N 2 0) * PI in
  let PIH := PI / (lit N 2 0) in
  let PI28 := PI * PI / (lit N 8 0) in
  let zeta3 := lit N 12020569031595942853997381615114499908 (-37) in
  let x :=
    if ltb N x (lit N 0 0) then
      let x := opp N x in
      x
    else
      x in
  let x :=
    if leb N PI2 x then
      let x := nfmod N x PI2 in
      x
    else
      x in
  let x :=
    if ltb N PI x then
      let p0 := lit N 628125 (-5) in
      let p1 := lit N 19353071795864769252867665590057683943 (-40) in
      let x := p0 - x + p1 in
      x
    else
      x in
  if eqb N x (lit N 0 0) then
    zeta3
  else
    let h := lit N 0 0 in
    let h :=
      if ltb N x PIH then
        let y := x * x in
        let z := y - PI28 in
        let z2 := z * z in
        let z4 := z2 * z2 in
        let z8 := z4 * z4 in
        let p := (aref N Cl3_l_P 0) + z * (aref N Cl3_l_P 1) + z2 * ((aref N Cl3_l_P 2) + z * (aref N Cl3_l_P 3)) + z4 * ((aref N Cl3_l_P 4) + z * (aref N Cl3_l_P 5) + z2 * ((aref N Cl3_l_P 6) + z * (aref N Cl3_l_P 7))) + z8 * (aref N Cl3_l_P 8) in
        let q := (aref N Cl3_l_Q 0) + z * (aref N Cl3_l_Q 1) + z2 * ((aref N Cl3_l_Q 2) + z * (aref N Cl3_l_Q 3)) + z4 * ((aref N Cl3_l_Q 4) + z * (aref N Cl3_l_Q 5) + z2 * ((aref N Cl3_l_Q 6) + z * (aref N Cl3_l_Q 7))) + z8 * (aref N Cl3_l_Q 8) in
        let h := zeta3 + y * (p / q + (lit N 5 (-1)) * (nlog N x)) in
        h
      else
        let y := PI - x in
        let z := y * y - PI28 in
        let z2 := z * z in
        let z4 := z2 * z2 in
        let z8 := z4 * z4 in
        let z16 := z8 * z8 in
        let p := (aref N Cl3_l_P2 0) + z * (aref N Cl3_l_P2 1) + z2 * ((aref N Cl3_l_P2 2) + z * (aref N Cl3_l_P2 3)) + z4 * ((aref N Cl3_l_P2 4) + z * (aref N Cl3_l_P2 5) + z2 * ((aref N Cl3_l_P2 6) + z * (aref N Cl3_l_P2 7))) + z8 * ((aref N Cl3_l_P2 8) + z * (aref N Cl3_l_P2 9) + z2 * ((aref N Cl3_l_P2 10) + z * (aref N Cl3_l_P2 11)) + z4 * ((aref N Cl3_l_P2 12) + z * (aref N Cl3_l_P2 13) + z2 * ((aref N Cl3_l_P2 14) + z * (aref N Cl3_l_P2 15)))) + z16 * ((aref N Cl3_l_P2 16) + z * (aref N Cl3_l_P2 17) + z2 * ((aref N Cl3_l_P2 18) + z * (aref N Cl3_l_P2 19)) + z4 * ((aref N Cl3_l_P2 20) + z * (aref N Cl3_l_P2 21) + z2 * (aref N Cl3_l_P2 22))) in
        let q := (aref N Cl3_l_Q2 0) + z * (aref N Cl3_l_Q2 1) + z2 * ((aref N Cl3_l_Q2 2) + z * (aref N Cl3_l_Q2 3)) + z4 * ((aref N Cl3_l_Q2 4) + z * (aref N Cl3_l_Q2 5) + z2 * ((aref N Cl3_l_Q2 6) + z * (aref N Cl3_l_Q2 7))) + z8 * ((aref N Cl3_l_Q2 8) + z * (aref N Cl3_l_Q2 9) + z2 * ((aref N Cl3_l_Q2 10) + z * (aref N Cl3_l_Q2 11)) + z4 * ((aref N Cl3_l_Q2 12) + z * (aref N Cl3_l_Q2 13) + z2 * ((aref N Cl3_l_Q2 14) + z * (aref N Cl3_l_Q2 15)))) + z16 * ((aref N Cl3_l_Q2 16) + z * (aref N Cl3_l_Q2 17) + z2 * ((aref N Cl3_l_Q2 18) + z * (aref N Cl3_l_Q2 19)) + z4 * ((aref N Cl3_l_Q2 20) + z * (aref N Cl3_l_Q2 21) + z2 * (aref N Cl3_l_Q2 22))) in
        let h := p / q in
        h in
    h.

(* src/cpp/Cl4.cpp:51  array P[4] *)
Definition Cl4_d_P : list N := [
   lit N (-30555555555555556) (-17);
   lit N 60521392328447206 (-19);
   lit N (-19587493942041528) (-21);
   lit N (-31137343767030358) (-24)
].

(* src/cpp/Cl4.cpp:55  array Q[4] *)
Definition Cl4_d_Q : list N := [
   lit N 1 0;
   lit N (-22079728398400851) (-18);
   lit N 10887447112236682 (-20);
   lit N (-61847621370547954) (-24)
].

(* src/cpp/Cl4.cpp:65  array P[6] *)
Definition Cl4_d_P2 : list N := [
   lit N 76223911686491336 (-17);
   lit N (-2433958736826726) (-16);
   lit N 28715364937979943 (-18);
   lit N (-15368612510964667) (-19);
   lit N 36261044225761673 (-21);
   lit N (-28557977333851308) (-23)
].

(* src/cpp/Cl4.cpp:70  array Q[6] *)
Definition Cl4_d_Q2 : list N := [
   lit N 1 0;
   lit N (-17465715261403233) (-17);
   lit N 95439417991615653 (-19);
   lit N (-17325070821666274) (-20);
   lit N 59283675098376635 (-23);
   lit N 9412757577336123 (-25)
].

(* src/cpp/Cl4.cpp:19-87 *)
Definition Cl4_d (x : car N) : car N :=
  let PI := lit N 314159265358979324 (-17) in
  let PI2 := (lit N 2 0) * PI in
  let PIH := PI / (lit N 2 0) in
  let PI28 := PI * PI / (lit N 8 0) in
  let zeta3 := lit N 12020569031595943 (-16) in
  let sgn := lit N 1 0 in
  let '(x, sgn) :=
    if ltb N x (lit N 0 0) then
      let x := opp N x in
      let sgn := lit N (-1) 0 in
      (x, sgn)
    else
      (x, sgn) in
  let x :=
    if leb N PI2 x then
      let x := nfmod N x PI2 in
      x
    else
      x in
  let '(x, sgn) :=
    if ltb N PI x then
      let p0 := lit N 628125 (-5) in
      let p1 := lit N 19353071795864769253 (-22) in
      let x := p0 - x + p1 in
      let sgn := opp N sgn in
      (x, sgn)
    else
      (x, sgn) in
  if eqb N x (lit N 0 0) then
    x
  else if eqb N x PI then
    lit N 0 0
  else
    let h := lit N 0 0 in
    let h :=
      if ltb N x PIH then
        let y := x * x in
        let y2 := y * y in
        let p := (aref N Cl4_d_P 0) + y * (aref N Cl4_d_P 1) + y2 * ((aref N Cl4_d_P 2) + y * (aref N Cl4_d_P 3)) in
        let q := (aref N Cl4_d_Q 0) + y * (aref N Cl4_d_Q 1) + y2 * ((aref N Cl4_d_Q 2) + y * (aref N Cl4_d_Q 3)) in
        let h := x * (zeta3 + y * (p / q + (lit N 1 0) / (lit N 6 0) * (nlog N x))) in
        h
      else
        let y := PI - x in
        let z := y * y - PI28 in
        let z2 := z * z in
        let z4 := z2 * z2 in
        let p := (aref N Cl4_d_P2 0) + z * (aref N Cl4_d_P2 1) + z2 * ((aref N Cl4_d_P2 2) + z * (aref N Cl4_d_P2 3)) + z4 * ((aref N Cl4_d_P2 4) + z * (aref N Cl4_d_P2 5)) in
        let q := (aref N Cl4_d_Q2 0) + z * (aref N Cl4_d_Q2 1) + z2 * ((aref N Cl4_d_Q2 2) + z * (aref N Cl4_d_Q2 3)) + z4 * ((aref N Cl4_d_Q2 4) + z * (aref N Cl4_d_Q2 5)) in
        let h := y * p / q in
        h in
    sgn * h.

(* src/cpp/Cl4.cpp:128  array P[9] *)
Definition Cl4_l_P : list N := [
   lit N (-3064148293902562247016704418203843255123) (-40);
   lit N 2505569295848759195239609343375835160555 (-41);
   lit N (-8092489304915887233846804452184668671559) (-43);
   lit N 1306550392088097227871332697836673781161 (-44);
   lit N (-109186119574801904204180141341372214952) (-45);
   lit N 4290976258123337917062729924440640694818 (-49);
   lit N (-482705787503594203965321741556461961333) (-51);
   lit N (-7817994926896706571532523150572289005814) (-55);
   lit N 1005354194675259498587105145642652708124 (-57)
].

(* src/cpp/Cl4.cpp:139  array Q[9] *)
Definition Cl4_l_Q : list N := [
   lit N 1 0;
   lit N (-8405033099067044445000733863730421988529) (-41);
   lit N 282711346719231501697678999804167286217 (-41);
   lit N (-4865778884542162517878400745754972885997) (-44);
   lit N 4544079814149520679837030712405877787979 (-46);
   lit N (-2246626075063535176123041843073598887706) (-48);
   lit N 5278103491358313047352307496085513128432 (-51);
   lit N (-4503548404587830179829476685164670510929) (-54);
   lit N 5683277279497885707083902179699889410498 (-58)
].

(* src/cpp/Cl4.cpp:162  array P[13] *)
Definition Cl4_l_P2 : list N := [
   lit N 7622391168649133627869594744879702180493 (-40);
   lit N (-101023189114826458018408115001186884622) (-38);
   lit N 5593311843617106683456367723756675040735 (-40);
   lit N (-1750142535337254911463918175625637736546) (-40);
   lit N 3444639642923636356477676643239523643873 (-41);
   lit N (-446708963016362562637550393654920895024) (-41);
   lit N 3886778570388940085712534905298979385012 (-43);
   lit N (-226724347518457036910826511350519114073) (-43);
   lit N 8702335438867849048873191203867941600263 (-46);
   lit N (-2109129915929703527128733018891419256495) (-47);
   lit N 2988467123764362417450870076317332442258 (-49);
   lit N (-2133050389878217363160872116919842900528) (-51);
   lit N 537972814394103361112586412708227078209 (-53)
].

(* src/cpp/Cl4.cpp:177  array Q[13] *)
Definition Cl4_l_Q2 : list N := [
   lit N 1 0;
   lit N (-1180687938097183154430487264715729257263) (-39);
   lit N 5601395009696004947928229952758353602894 (-40);
   lit N (-1452335710129900283499882062220239913044) (-40);
   lit N 2262139281960755856101092904992480836291 (-41);
   lit N (-2192073007443907755835491584063761368816) (-42);
   lit N 1329216132182395210305478468336390325445 (-43);
   lit N (-494800226689402061251354563448227185751) (-44);
   lit N 1075239424448883617918347989934070034554 (-46);
   lit N (-1231942925472515536287130721129266117605) (-48);
   lit N 5987816416306400663411961902200439505519 (-51);
   lit N (-6217050327376472635914508068068185584426) (-54);
   lit N (-3160114789318241107017689802541627876077) (-57)
].

(* src/cpp/Cl4.cpp:96-208 *)
Definition Cl4_l (x : car N) : car N :=
  let PI := lit N 314159265358979323846264338327950288 (-35) in
  let PI2 := (lit N 2 0) * PI in
  let PIH := PI / (lit N 2 0) in
  let PI28 := PI * PI / (lit N 8 0) in
  let zeta3 := lit N 12020569031595942853997381615114499908 (-37) in
  let sgn := lit N 1 0 in
  let '(x, sgn) :=
    if ltb N x (lit N 0 0) then
      let x := opp N x in
      let sgn := lit N (-1) 0 in
      (x, sgn)
    else
      (x, sgn) in
  let x :=
    if leb N PI2 x then
      let x := nfmod N x PI2 in
      x
    else
      x in
  let '(x, sgn) :=
    if ltb N PI x then
      let p0 := lit N 628125 (-5) in
      let p1 := lit N 19353071795864769252867665590057683943 (-40) in
      let x := p0 - x + p1 in
      let sgn := opp N sgn in
      (x, sgn)
    else
      (x, sgn) in
  if eqb N x (lit N 0 0) then
    x
  else if eqb N x PI then
    lit N 0 0
  else
    let h := lit N 0 0 in
    let h :=
      if ltb N x PIH then
        let y := x * x in
        let z := y - PI28 in
        let z2 := z * z in
        let z4 := z2 * z2 in
        let z8 := z4 * z4 in
        let p := (aref N Cl4_l_P 0) + z * (aref N Cl4_l_P 1) + z2 * ((aref N Cl4_l_P 2) + z * (aref N Cl4_l_P 3)) + z4 * ((aref N Cl4_l_P 4) + z * (aref N Cl4_l_P 5) + z2 * ((aref N Cl4_l_P 6) + z * (aref N Cl4_l_P 7))) + z8 * (aref N Cl4_l_P 8) in
        let q := (aref N Cl4_l_Q 0) + z * (aref N Cl4_l_Q 1) + z2 * ((aref N Cl4_l_Q 2) + z * (aref N Cl4_l_Q 3)) + z4 * ((aref N Cl4_l_Q 4) + z * (aref N Cl4_l_Q 5) + z2 * ((aref N Cl4_l_Q 6) + z * (aref N Cl4_l_Q 7))) + z8 * (aref N Cl4_l_Q 8) in
        let h := x * (zeta3 + y * (p / q + (lit N 1 0) / (lit N 6 0) * (nlog N x))) in
        h
      else
        let y := PI - x in
        let z := y * y - PI28 in
        let z2 := z * z in
        let z4 := z2 * z2 in
        let z8 := z4 * z4 in
        let p := (aref N Cl4_l_P2 0) + z * (aref N Cl4_l_P2 1) + z2 * ((aref N Cl4_l_P2 2) + z * (aref N Cl4_l_P2 3)) + z4 * ((aref N Cl4_l_P2 4) + z * (aref N Cl4_l_P2 5) + z2 * ((aref N Cl4_l_P2 6) + z * (aref N Cl4_l_P2 7))) + z8 * ((aref N Cl4_l_P2 8) + z * (aref N Cl4_l_P2 9) + z2 * ((aref N Cl4_l_P2 10) + z * (aref N Cl4_l_P2 11)) + z4 * (aref N Cl4_l_P2 12)) in
        let q := (aref N Cl4_l_Q2 0) + z * (aref N Cl4_l_Q2 1) + z2 * ((aref N Cl4_l_Q2 2) + z * (aref N Cl4_l_Q2 3)) + z4 * ((aref N Cl4_l_Q2 4) + z * (aref N Cl4_l_Q2 5) + z2 * ((aref N Cl4_l_Q2 6) + z * (aref N Cl4_l_Q2 7))) + z8 * ((aref N Cl4_l_Q2 8) + z * (aref N Cl4_l_Q2 9) + z2 * ((aref N Cl4_l_Q2 10) + z * (aref N Cl4_l_Q2 11)) + z4 * (aref N Cl4_l_Q2 12)) in
        let h := y * p / q in
        h in
    sgn * h.

(* src/cpp/Cl5.cpp:46  array P[4] *)
Definition Cl5_d_P : list N := [
   lit N 10369277551433699 (-16);
   lit N (-61354800479984468) (-17);
   lit N 94076401395712763 (-18);
   lit N (-94056155866704436) (-20)
].

(* src/cpp/Cl5.cpp:50  array Q[5] *)
Definition Cl5_d_Q : list N := [
   lit N 1 0;
   lit N (-12073698633244778) (-18);
   lit N 13703409625482991 (-21);
   lit N (-19701280330628469) (-25);
   lit N 219445501844165 (-25)
].

(* src/cpp/Cl5.cpp:61  array P[6] *)
Definition Cl5_d_P2 : list N := [
   lit N (-45930112735784898) (-17);
   lit N 43720705508867954 (-17);
   lit N (-75895226486465095) (-18);
   lit N 52244176912488065 (-19);
   lit N (-15677716622013956) (-20);
   lit N 16641624171748576 (-22)
].

(* src/cpp/Cl5.cpp:66  array Q[6] *)
Definition Cl5_d_Q2 : list N := [
   lit N 1 0;
   lit N (-12211486825401188) (-17);
   lit N 3894007074931362 (-18);
   lit N (-22674805547074318) (-21);
   lit N (-74383354448335299) (-24);
   lit N (-34131758392216437) (-26)
].

(* src/cpp/Cl5.cpp:19-83 *)
Definition Cl5_d (x : car N) : car N :=
  let PI := lit N 314159265358979324 (-17) in
  let PI2 := (lit N 2 0) * PI in
  let PIH := PI / (lit N 2 0) in
  let PI28 := PI * PI / (lit N 8 0) in
  let zeta5 := lit N 10369277551433699 (-16) in
  let x :=
    if ltb N x (lit N 0 0) then
      let x := opp N x in
      x
    else
      x in
  let x :=
    if leb N PI2 x then
      let x := nfmod N x PI2 in
      x
    else
      x in
  let x :=
    if ltb N PI x then
      let p0 := lit N 628125 (-5) in
      let p1 := lit N 19353071795864769253 (-22) in
      let x := p0 - x + p1 in
      x
    else
      x in
  if eqb N x (lit N 0 0) then
    zeta5
  else
    let h := lit N 0 0 in
    let h :=
      if ltb N x PIH then
        let y := x * x in
        let y2 := y * y in
        let p := (aref N Cl5_d_P 0) + y * (aref N Cl5_d_P 1) + y2 * ((aref N Cl5_d_P 2) + y * (aref N Cl5_d_P 3)) in
        let q := (aref N Cl5_d_Q 0) + y * (aref N Cl5_d_Q 1) + y2 * ((aref N Cl5_d_Q 2) + y * (aref N Cl5_d_Q 3) + y2 * (aref N Cl5_d_Q 4)) in
        let h := p / q - (lit N 1 0) / (lit N 24 0) * y2 * (nlog N x) in
        h
      else
        let y := PI - x in
        let z := y * y - PI28 in
        let z2 := z * z in
        let z4 := z2 * z2 in
        let p := (aref N Cl5_d_P2 0) + z * (aref N Cl5_d_P2 1) + z2 * ((aref N Cl5_d_P2 2) + z * (aref N Cl5_d_P2 3)) + z4 * ((aref N Cl5_d_P2 4) + z * (aref N Cl5_d_P2 5)) in
        let q := (aref N Cl5_d_Q2 0) + z * (aref N Cl5_d_Q2 1) + z2 * ((aref N Cl5_d_Q2 2) + z * (aref N Cl5_d_Q2 3)) + z4 * ((aref N Cl5_d_Q2 4) + z * (aref N Cl5_d_Q2 5)) in
        let h := p / q in
        h in
    h.

(* src/cpp/Cl5.cpp:119  array P[9] *)
Definition Cl5_l_P : list N := [
   lit N 1036927755143369926331365486457034168059 (-39);
   lit N (-6658415657850437630906494266561003007593) (-40);
   lit N 1259003016280956661310195617144355854188 (-40);
   lit N (-6212244855421374019684377914106722032147) (-42);
   lit N 1306904675086766776780752497454855872743 (-43);
   lit N (-1301122318938781794973397940423670888074) (-45);
   lit N 5717682046130944699740232163126766430315 (-48);
   lit N (-7166730647779603072734193853044478650519) (-51);
   lit N (-6221283541257953085130453147995995181367) (-54)
].

(* src/cpp/Cl5.cpp:130  array Q[9] *)
Definition Cl5_l_Q : list N := [
   lit N 1 0;
   lit N (-6250494683333583907004116232413530782665) (-41);
   lit N 1473096513856482450087316982512306280017 (-42);
   lit N (-1623646824927319203504705952432918456484) (-44);
   lit N 8353119806924927286335397331658035078824 (-47);
   lit N (-1681466989589289789440503472880056217026) (-49);
   lit N 6148805322164900432117190884093933333085 (-53);
   lit N (-5433659481969077686644650549730628882111) (-57);
   lit N 2805294177992899924191150639021652374105 (-59)
].

(* src/cpp/Cl5.cpp:151  array P[22] *)
Definition Cl5_l_P2 : list N := [
   lit N (-4593011273578489831122037919180632756992) (-40);
   lit N 1401498550034362701805821755409735004849 (-39);
   lit N (-1982304363064711766557880680480142023754) (-39);
   lit N 1759256162035262108299985791199116650552 (-39);
   lit N (-1107291973389099556880709229657630417009) (-39);
   lit N 5268325404326907430154018183034221801285 (-40);
   lit N (-196535865160752299471455769733974660819) (-39);
   lit N 5871957972979889275145683305566978199622 (-41);
   lit N (-1420949697005558567627555469736533751386) (-41);
   lit N 2796107583559495331461649354270877844625 (-42);
   lit N (-4465744740639093809792128449171996370363) (-43);
   lit N 5748894292163274399653883756491192329322 (-44);
   lit N (-5896839706071169994406762984593861583644) (-45);
   lit N 4744162040470895539630087398826359252082 (-46);
   lit N (-2935072474912184831415614463651445914914) (-47);
   lit N 1362917540308020844217793474829589045233 (-48);
   lit N (-4607334782488962303281676898176385641774) (-50);
   lit N 1088416571921417630560594614106156147693 (-51);
   lit N (-169349246682701082918692235411895820117) (-52);
   lit N 1579743944918170026644416986681028224058 (-55);
   lit N (-7454416400034827845657507019398034188457) (-58);
   lit N 1198637161245584739862544324830094607612 (-60)
].

(* src/cpp/Cl5.cpp:175  array Q[22] *)
Definition Cl5_l_Q2 : list N := [
   lit N 1 0;
   lit N (-2221590435607426981424381339809382952069) (-39);
   lit N 2412461871413914536986570795505245816684 (-39);
   lit N (-1694345897219170542301900522084726731706) (-39);
   lit N 8583400353918575152767736792978326398967 (-40);
   lit N (-3312119064957463423272973014087119757079) (-40);
   lit N 1002294898527499697641480925721728343179 (-40);
   lit N (-2413139952253300495006378204579804376275) (-41);
   lit N 4641991091392426345416434800383383313512 (-42);
   lit N (-7106571006177041202150584409076882380159) (-43);
   lit N 8561490223086549530320523664905653696096 (-44);
   lit N (-7967787445964202721461699361010303143885) (-45);
   lit N 5582421743796253821134150677212091680429 (-46);
   lit N (-284800532030919245844589496614005040387) (-46);
   lit N 1014286757743366612938336036904920512828 (-48);
   lit N (-2385238633505776782528334863036613070815) (-50);
   lit N 3420301781310778564389954330829757801274 (-52);
   lit N (-262939899334921225271680457248343597536) (-53);
   lit N 8429482185232205831230867081060289901658 (-57);
   lit N (-5246319511505491796737303878146128855864) (-60);
   lit N (-7761839321681147483054193372291436641588) (-64);
   lit N 2417533650811564066454166411668509913721 (-66)
].

(* src/cpp/Cl5.cpp:92-221 *)
Definition Cl5_l (x : car N) : car N :=
  let PI := lit N 314159265358979323846264338327950288 (-35) in
  let PI2 := (lit N 2 0) * PI in
  let PIH := PI / (lit N 2 0) in
  let PI28 := PI * PI / (lit N 8 0) in
  let zeta5 := lit N 1036927755143369926331365486457034168057 (-39) in
  let x :=
    if ltb N x (lit N 0 0) then
      let x := opp N x in
      x
    else
      x in
  let x :=
    if leb N PI2 x then
      let x := nfmod N x PI2 in
      x
    else
      x in
  let x :=
    if ltb N PI x then
      let p0 := lit N 628125 (-5) in
      let p1 := lit N 19353071795864769252867665590057683943 (-40) in
      let x := p0 - x + p1 in
      x
    else
      x in
  if eqb N x (lit N 0 0) then
    zeta5
  else
    let h := lit N 0 0 in
    let h :=
      if ltb N x PIH then
        let y := x * x in
        let y2 := y * y in
        let y4 := y2 * y2 in
        let y8 := y4 * y4 in
        let p := (aref N Cl5_l_P 0) + y * (aref N Cl5_l_P 1) + y2 * ((aref N Cl5_l_P 2) + y * (aref N Cl5_l_P 3)) + y4 * ((aref N Cl5_l_P 4) + y * (aref N Cl5_l_P 5) + y2 * ((aref N Cl5_l_P 6) + y * (aref N Cl5_l_P 7))) + y8 * (aref N Cl5_l_P 8) in
        let q := (aref N Cl5_l_Q 0) + y * (aref N Cl5_l_Q 1) + y2 * ((aref N Cl5_l_Q 2) + y * (aref N Cl5_l_Q 3)) + y4 * ((aref N Cl5_l_Q 4) + y * (aref N Cl5_l_Q 5) + y2 * ((aref N Cl5_l_Q 6) + y * (aref N Cl5_l_Q 7))) + y8 * (aref N Cl5_l_Q 8) in
        let h := p / q - (lit N 1 0) / (lit N 24 0) * y2 * (nlog N x) in
        h
      else
        let y := PI - x in
        let z := y * y - PI28 in
        let z2 := z * z in
        let z4 := z2 * z2 in
        let z8 := z4 * z4 in
        let z16 := z8 * z8 in
        let p := (aref N Cl5_l_P2 0) + z * (aref N Cl5_l_P2 1) + z2 * ((aref N Cl5_l_P2 2) + z * (aref N Cl5_l_P2 3)) + z4 * ((aref N Cl5_l_P2 4) + z * (aref N Cl5_l_P2 5) + z2 * ((aref N Cl5_l_P2 6) + z * (aref N Cl5_l_P2 7))) + z8 * ((aref N Cl5_l_P2 8) + z * (aref N Cl5_l_P2 9) + z2 * ((aref N Cl5_l_P2 10) + z * (aref N Cl5_l_P2 11)) + z4 * ((aref N Cl5_l_P2 12) + z * (aref N Cl5_l_P2 13) + z2 * ((aref N Cl5_l_P2 14) + z * (aref N Cl5_l_P2 15)))) + z16 * ((aref N Cl5_l_P2 16) + z * (aref N Cl5_l_P2 17) + z2 * ((aref N Cl5_l_P2 18) + z * (aref N Cl5_l_P2 19)) + z4 * ((aref N Cl5_l_P2 20) + z * (aref N Cl5_l_P2 21))) in
        let q := (aref N Cl5_l_Q2 0) + z * (aref N Cl5_l_Q2 1) + z2 * ((aref N Cl5_l_Q2 2) + z * (aref N Cl5_l_Q2 3)) + z4 * ((aref N Cl5_l_Q2 4) + z * (aref N Cl5_l_Q2 5) + z2 * ((aref N Cl5_l_Q2 6) + z * (aref N Cl5_l_Q2 7))) + z8 * ((aref N Cl5_l_Q2 8) + z * (aref N Cl5_l_Q2 9) + z2 * ((aref N Cl5_l_Q2 10) + z * (aref N Cl5_l_Q2 11)) + z4 * ((aref N Cl5_l_Q2 12) + z * (aref N Cl5_l_Q2 13) + z2 * ((aref N Cl5_l_Q2 14) + z * (aref N Cl5_l_Q2 15)))) + z16 * ((aref N Cl5_l_Q2 16) + z * (aref N Cl5_l_Q2 17) + z2 * ((aref N Cl5_l_Q2 18) + z * (aref N Cl5_l_Q2 19)) + z4 * ((aref N Cl5_l_Q2 20) + z * (aref N Cl5_l_Q2 21))) in
        let h := p / q in
        h in
    h.

(* src/cpp/Cl6.cpp:50  array P[4] *)
Definition Cl6_d_P : list N := [
   lit N 10369277551433699 (-16);
   lit N (-2087195444107175) (-16);
   lit N 20652251045312954 (-18);
   lit N (-138343813825684) (-18)
].

(* src/cpp/Cl6.cpp:54  array Q[4] *)
Definition Cl6_d_Q : list N := [
   lit N 1 0;
   lit N (-80784096827362542) (-19);
   lit N 58074568862993102 (-22);
   lit N (-51960620033050114) (-26)
].

(* src/cpp/Cl6.cpp:64  array P[5] *)
Definition Cl6_d_P2 : list N := [
   lit N 7954450457802705 (-16);
   lit N (-19255025309738589) (-17);
   lit N 15805208288846591 (-18);
   lit N (-54175380521534706) (-20);
   lit N 67577493541009068 (-22)
].

(* src/cpp/Cl6.cpp:69  array Q[6] *)
Definition Cl6_d_Q2 : list N := [
   lit N 1 0;
   lit N (-70798422394109274) (-18);
   lit N 71744189715634762 (-20);
   lit N 39098747334347093 (-22);
   lit N 35669441618295266 (-24);
   lit N 25315391843409925 (-26)
].

(* src/cpp/Cl6.cpp:19-86 *)
Definition Cl6_d (x : car N) : car N :=
  let PI := lit N 314159265358979324 (-17) in
  let PI2 := (lit N 2 0) * PI in
  let PIH := PI / (lit N 2 0) in
  let PI28 := PI * PI / (lit N 8 0) in
  let sgn := lit N 1 0 in
  let '(x, sgn) :=
    if ltb N x (lit N 0 0) then
      let x := opp N x in
      let sgn := lit N (-1) 0 in
      (x, sgn)
    else
      (x, sgn) in
  let x :=
    if leb N PI2 x then
      let x := nfmod N x PI2 in
      x
    else
      x in
  let '(x, sgn) :=
    if ltb N PI x then
      let p0 := lit N 628125 (-5) in
      let p1 := lit N 19353071795864769253 (-22) in
      let x := p0 - x + p1 in
      let sgn := opp N sgn in
      (x, sgn)
    else
      (x, sgn) in
  if eqb N x (lit N 0 0) then
    x
  else if eqb N x PI then
    lit N 0 0
  else
    let h := lit N 0 0 in
    let h :=
      if ltb N x PIH then
        let y := x * x in
        let y2 := y * y in
        let p := (aref N Cl6_d_P 0) + y * (aref N Cl6_d_P 1) + y2 * ((aref N Cl6_d_P 2) + y * (aref N Cl6_d_P 3)) in
        let q := (aref N Cl6_d_Q 0) + y * (aref N Cl6_d_Q 1) + y2 * ((aref N Cl6_d_Q 2) + y * (aref N Cl6_d_Q 3)) in
        let h := x * (p / q - (lit N 1 0) / (lit N 120 0) * y2 * (nlog N x)) in
        h
      else
        let y := PI - x in
        let z := y * y - PI28 in
        let z2 := z * z in
        let z4 := z2 * z2 in
        let p := (aref N Cl6_d_P2 0) + z * (aref N Cl6_d_P2 1) + z2 * ((aref N Cl6_d_P2 2) + z * (aref N Cl6_d_P2 3)) + z4 * (aref N Cl6_d_P2 4) in
        let q := (aref N Cl6_d_Q2 0) + z * (aref N Cl6_d_Q2 1) + z2 * ((aref N Cl6_d_Q2 2) + z * (aref N Cl6_d_Q2 3)) + z4 * ((aref N Cl6_d_Q2 4) + z * (aref N Cl6_d_Q2 5)) in
        let h := y * p / q in
        h in
    sgn * h.

(* src/cpp/Cl6.cpp:126  array P[8] *)
Definition Cl6_l_P : list N := [
   lit N 1036927755143369926331365486457034168065 (-39);
   lit N (-2660560946045374649259428347964066528011) (-40);
   lit N 3329570271230632447915886341952627002426 (-41);
   lit N (-1510595936295153930344410647448777133733) (-42);
   lit N 3131533341760691526435978423292286070924 (-44);
   lit N (-3182202696889770889861949924913754657738) (-46);
   lit N 1502154861660275591001686250751888925088 (-48);
   lit N (-253030142517091747164769792403226988434) (-50)
].

(* src/cpp/Cl6.cpp:136  array Q[9] *)
Definition Cl6_l_Q : list N := [
   lit N 1 0;
   lit N (-6337305283354669272645114902626308743354) (-41);
   lit N 1515620531828504731765511986731389626117 (-42);
   lit N (-1701012841394302177981550973231789765121) (-44);
   lit N 9012790948792709615665799862069582273389 (-47);
   lit N (-1955750290547090446555264920849355913809) (-49);
   lit N 1125635205633553699806475976092388993586 (-52);
   lit N (-3414909518610593288941467030106839852619) (-56);
   lit N 2731334891221423274951783991445121711509 (-59)
].

(* src/cpp/Cl6.cpp:157  array P[23] *)
Definition Cl6_l_P2 : list N := [
   lit N 7954450457802705032518570844852029808415 (-40);
   lit N (-1979654488543484542796423982466857472184) (-39);
   lit N 2434867838946397357375315454192170616124 (-39);
   lit N (-1964425998279360367244413531701686788004) (-39);
   lit N 1163493279389496220127087149386609481819 (-39);
   lit N (-5364077005864988957572986042062186039135) (-40);
   lit N 1991451450604170643782194918551652235412 (-40);
   lit N (-6075285910357297275594322567072299864962) (-41);
   lit N 1540382986766113987053539678403427170024 (-41);
   lit N (-3262283827598416962628772540178344338003) (-42);
   lit N 5770138838748397202025797274794204575025 (-43);
   lit N (-8484414959829259817085085809443855753227) (-44);
   lit N 1028090385459798495867863677951863946204 (-44);
   lit N (-1013685169455150840547824060456243954836) (-45);
   lit N 7999945234418244274075829768407844359782 (-47);
   lit N (-4952891486250932501218801565751739529817) (-48);
   lit N 234881523386717153900980606366035648883 (-48);
   lit N (-8290157415183592261669982284003187521338) (-51);
   lit N 2099356902503040843690329973355214193519 (-52);
   lit N (-362478099503605813442774830778005972526) (-53);
   lit N 394284791022862272548205787855218237521 (-55);
   lit N (-2345906560814244916985213074113978675514) (-58);
   lit N 5497397893599040802663932665275542828208 (-61)
].

(* src/cpp/Cl6.cpp:182  array Q[23] *)
Definition Cl6_l_Q2 : list N := [
   lit N 1 0;
   lit N (-2317470577719543024485753572740604958739) (-39);
   lit N 2657078821297694611895446031834996152906 (-39);
   lit N (-1998173132007341993679896448865948292346) (-39);
   lit N 1101652499108299120694677562656808297062 (-39);
   lit N (-4714605359562262375267465521671001054303) (-40);
   lit N 1617420872947402588595250105881596491551 (-40);
   lit N (-4529168129075646577813431788905728209674) (-41);
   lit N 1044157981053687467828669325295558925061 (-41);
   lit N (-198441595302705101051143972552414029351) (-41);
   lit N 3093087663153734127422305801345643761966 (-43);
   lit N (-3908979880746900739955710393100816436543) (-44);
   lit N 3932920430793276196786510478170661211424 (-45);
   lit N (-3069947838220881985252402565106441299447) (-46);
   lit N 1796593245006812188327588557650112423621 (-47);
   lit N (-754766078792206182412416698905661019802) (-48);
   lit N 2154298038494995924762486242481055338867 (-50);
   lit N (-3878728177963117873055418445714408964957) (-52);
   lit N 3933225726003866890018525083062372496392 (-54);
   lit N (-1816273280755794317176857308245737055922) (-56);
   lit N 199937625510483036018035239637041306188 (-58);
   lit N 1409076511280851323909957285090860978867 (-62);
   lit N 1442619469440665628791395058095914522784 (-65)
].

(* src/cpp/Cl6.cpp:95-229 *)
Definition Cl6_l (x : car N) : car N :=
  let PI := lit N 314159265358979323846264338327950288 (-35) in
  let PI2 := (lit N 2 0) * PI in
  let PIH := PI / (lit N 2 0) in
  let PI28 := PI * PI / (lit N 8 0) in
  let sgn := lit N 1 0 in
  let '(x, sgn) :=
    if ltb N x (lit N 0 0) then
      let x := opp N x in
      let sgn := lit N (-1) 0 in
      (x, sgn)
    else
      (x, sgn) in
  let x :=
    if leb N PI2 x then
      let x := nfmod N x PI2 in
      x
    else
      x in
  let '(x, sgn) :=
    if ltb N PI x then
      let p0 := lit N 628125 (-5) in
      let p1 := lit N 19353071795864769252867665590057683943 (-40) in
      let x := p0 - x + p1 in
      let sgn := opp N sgn in
      (x, sgn)
    else
      (x, sgn) in
  if eqb N x (lit N 0 0) then
    x
  else if eqb N x PI then
    lit N 0 0
  else
    let h := lit N 0 0 in
    let h :=
      if ltb N x PIH then
        let y := x * x in
        let y2 := y * y in
        let y4 := y2 * y2 in
        let y8 := y4 * y4 in
        let p := (aref N Cl6_l_P 0) + y * (aref N Cl6_l_P 1) + y2 * ((aref N Cl6_l_P 2) + y * (aref N Cl6_l_P 3)) + y4 * ((aref N Cl6_l_P 4) + y * (aref N Cl6_l_P 5) + y2 * ((aref N Cl6_l_P 6) + y * (aref N Cl6_l_P 7))) in
        let q := (aref N Cl6_l_Q 0) + y * (aref N Cl6_l_Q 1) + y2 * ((aref N Cl6_l_Q 2) + y * (aref N Cl6_l_Q 3)) + y4 * ((aref N Cl6_l_Q 4) + y * (aref N Cl6_l_Q 5) + y2 * ((aref N Cl6_l_Q 6) + y * (aref N Cl6_l_Q 7))) + y8 * (aref N Cl6_l_Q 8) in
        let h := x * (p / q - (lit N 1 0) / (lit N 120 0) * y2 * (nlog N x)) in
        h
      else
        let y := PI - x in
        let z := y * y - PI28 in
        let z2 := z * z in
        let z4 := z2 * z2 in
        let z8 := z4 * z4 in
        let z16 := z8 * z8 in
        let p := (aref N Cl6_l_P2 0) + z * (aref N Cl6_l_P2 1) + z2 * ((aref N Cl6_l_P2 2) + z * (aref N Cl6_l_P2 3)) + z4 * ((aref N Cl6_l_P2 4) + z * (aref N Cl6_l_P2 5) + z2 * ((aref N Cl6_l_P2 6) + z * (aref N Cl6_l_P2 7))) + z8 * ((aref N Cl6_l_P2 8) + z * (aref N Cl6_l_P2 9) + z2 * ((aref N Cl6_l_P2 10) + z * (aref N Cl6_l_P2 11)) + z4 * ((aref N Cl6_l_P2 12) + z * (aref N Cl6_l_P2 13) + z2 * ((aref N Cl6_l_P2 14) + z * (aref N Cl6_l_P2 15)))) + z16 * ((aref N Cl6_l_P2 16) + z * (aref N Cl6_l_P2 17) + z2 * ((aref N Cl6_l_P2 18) + z * (aref N Cl6_l_P2 19)) + z4 * ((aref N Cl6_l_P2 20) + z * (aref N Cl6_l_P2 21) + z2 * (aref N Cl6_l_P2 22))) in
        let q := (aref N Cl6_l_Q2 0) + z * (aref N Cl6_l_Q2 1) + z2 * ((aref N Cl6_l_Q2 2) + z * (aref N Cl6_l_Q2 3)) + z4 * ((aref N Cl6_l_Q2 4) + z * (aref N Cl6_l_Q2 5) + z2 * ((aref N Cl6_l_Q2 6) + z * (aref N Cl6_l_Q2 7))) + z8 * ((aref N Cl6_l_Q2 8) + z * (aref N Cl6_l_Q2 9) + z2 * ((aref N Cl6_l_Q2 10) + z * (aref N Cl6_l_Q2 11)) + z4 * ((aref N Cl6_l_Q2 12) + z * (aref N Cl6_l_Q2 13) + z2 * ((aref N Cl6_l_Q2 14) + z * (aref N Cl6_l_Q2 15)))) + z16 * ((aref N Cl6_l_Q2 16) + z * (aref N Cl6_l_Q2 17) + z2 * ((aref N Cl6_l_Q2 18) + z * (aref N Cl6_l_Q2 19)) + z4 * ((aref N Cl6_l_Q2 20) + z * (aref N Cl6_l_Q2 21) + z2 * (aref N Cl6_l_Q2 22))) in
        let h := y * p / q in
        h in
    sgn * h.

End M.
