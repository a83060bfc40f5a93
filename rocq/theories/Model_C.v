(** * Model of the C interface (src/c)

    Transcribed from the C sources by tools/gen_c.py (expression by expression,
    with C precedence and associativity); every definition cites the lines it
    models.  Suffixes as in Model_LiR.v: _f float, _d double, _l long double with
    LDBL_DIG <= 18 (x87), _q long double with LDBL_DIG > 18 (quadruple).
    Simplifications: complex multiplication and division are the textbook
    formulas (C99 Annex G's recovery of infinities is not modelled), a product
    x*I of a real x with I is the pair (0, x) and r + x*I is the pair (r, x). *)
From Coq Require Import ZArith List Bool.
From Verif Require Import Num.
Import ListNotations.
Local Open Scope Z_scope.

Section M.
Variable N : num.
Local Notation "x + y" := (add N x y).
Local Notation "x - y" := (sub N x y).
Local Notation "x * y" := (mul N x y).
Local Notation "x / y" := (div N x y).
Local Notation aref N c i := (Num.aref N c i%nat).

(* src/c/Li2.c:13-19  p = 0; while (len--) p = p*x + c[len]; *)
Fixpoint hornerl (x : N) (c : list N) : N :=
  match c with nil => lit N 0 0 | a :: r => hornerl x r * x + a end.
(* the loops  for (i = len-1; i >= k; i--) sum = u*(c[i] + sum);  of cli2l .. cli6l *)
Definition sumdown (k : nat) (u : cpx N) (c : list N) : cpx N :=
  fold_right (fun a sum => cmul N u (cadd_rc N a sum)) (lit N 0 0, lit N 0 0) (skipn k c).

(* src/c/Cl2.c:47  array P[4] *)
Definition c_cl2_d_P : list N := [
   lit N 13888888888888889 (-18);
   lit N (-43286930203743071) (-20);
   lit N 32779814789973427 (-22);
   lit N (-36001540369575084) (-25)
].

(* src/c/Cl2.c:51  array Q[4] *)
Definition c_cl2_d_Q : list N := [
   lit N 1 0;
   lit N (-36166589746694121) (-18);
   lit N 36015827281202639 (-20);
   lit N (-83646182842184428) (-23)
].

(* src/c/Cl2.c:62  array P[6] *)
Definition c_cl2_d_P2 : list N := [
   lit N 64005702446195512 (-17);
   lit N (-20641655351338783) (-17);
   lit N 24175305223497718 (-18);
   lit N (-12355955287855728) (-19);
   lit N 25649833551291124 (-21);
   lit N (-1478382912877332) (-22)
].

(* src/c/Cl2.c:67  array Q[6] *)
Definition c_cl2_d_Q2 : list N := [
   lit N 1 0;
   lit N (-25299102015666356) (-17);
   lit N 22148751048467057 (-18);
   lit N (-78183920462457496) (-20);
   lit N 9543254219631067 (-21);
   lit N (-18184302880448247) (-24)
].

(* src/c/Cl2.c:16-85 *)
Definition c_cl2_d (x : car N) : car N :=
  let PI := lit N 314159265358979324 (-17) in
  let PI2 := (lit N 2 0) * PI in
  let PIH := PI / (lit N 2 0) in
  let PI28 := PI * PI / (lit N 8 0) in
  let sgn := lit N 1 0 in
  let '(x, sgn) :=
    if ltb N x (lit N 0 0) then
      let x := opp N x in
      let sgn := lit N (-1) 0 in
      (x, sgn)
    else
      (x, sgn) in
  let x :=
    if leb N PI2 x then
      let x := nfmod N x PI2 in
      x
    else
      x in
  let '(x, sgn) :=
    if ltb N PI x then
      let p0 := lit N 628125 (-5) in
      let p1 := lit N 19353071795864769253 (-22) in
      let x := p0 - x + p1 in
      let sgn := opp N sgn in
      (x, sgn)
    else
      (x, sgn) in
  if eqb N x (lit N 0 0) then
    x
  else if eqb N x PI then
    lit N 0 0
  else
    let h := lit N 0 0 in
    let h :=
      if ltb N x PIH then
        let y := x * x in
        let y2 := y * y in
        let p := (aref N c_cl2_d_P 0) + y * (aref N c_cl2_d_P 1) + y2 * ((aref N c_cl2_d_P 2) + y * (aref N c_cl2_d_P 3)) in
        let q := (aref N c_cl2_d_Q 0) + y * (aref N c_cl2_d_Q 1) + y2 * ((aref N c_cl2_d_Q 2) + y * (aref N c_cl2_d_Q 3)) in
        let h := x * ((lit N 1 0) - (nlog N x) + y * p / q) in
        h
      else
        let y := PI - x in
        let z := y * y - PI28 in
        let z2 := z * z in
        let z4 := z2 * z2 in
        let p := (aref N c_cl2_d_P2 0) + z * (aref N c_cl2_d_P2 1) + z2 * ((aref N c_cl2_d_P2 2) + z * (aref N c_cl2_d_P2 3)) + z4 * ((aref N c_cl2_d_P2 4) + z * (aref N c_cl2_d_P2 5)) in
        let q := (aref N c_cl2_d_Q2 0) + z * (aref N c_cl2_d_Q2 1) + z2 * ((aref N c_cl2_d_Q2 2) + z * (aref N c_cl2_d_Q2 3)) + z4 * ((aref N c_cl2_d_Q2 4) + z * (aref N c_cl2_d_Q2 5)) in
        let h := y * p / q in
        h in
    sgn * h.

(* src/c/Cl2.c:128  array P[9] *)
Definition c_cl2_l_P : list N := [
   lit N 1397578291120963523206040867955323306427 (-41);
   lit N (-1352264019891065415863834380176236559873) (-42);
   lit N 5292882735889014643812912154970234565053 (-44);
   lit N (-1073753987723414895538739538414225390109) (-45);
   lit N 1200707648340635046555652744163248062266 (-47);
   lit N (-725285895271804468464064839166578392685) (-49);
   lit N 2140267450520462605982610727277758328875 (-52);
   lit N (-2396401118613241903411604342093433593468) (-55);
   lit N 4441828690926415235588391389499684215009 (-59)
].

(* src/c/Cl2.c:139  array Q[9] *)
Definition c_cl2_l_Q : list N := [
   lit N 1 0;
   lit N (-1018694323414614410071369720193716012304) (-40);
   lit N 4248408782245281612900840467370146443889 (-42);
   lit N (-9337710301347963985908084056584187570954) (-44);
   lit N 1159379163193822053103946363960603543601 (-45);
   lit N (-8083352720393357000801675734774176899515) (-48);
   lit N 2949313240431512997069808854213308209519 (-50);
   lit N (-4742700419624204182400715964695278593777) (-53);
   lit N 2158380636740175386190809152807629331877 (-56)
].

(* src/c/Cl2.c:162  array P[13] *)
Definition c_cl2_l_P2 : list N := [
   lit N 6400570244619551220929428522356830562481 (-40);
   lit N (-4651631624886004423703445967760673575997) (-40);
   lit N 1487130845262105644024901814213146749895 (-40);
   lit N (-2749665174801454303884783494225610407035) (-41);
   lit N 3251522465413666561950482170352156048203 (-42);
   lit N (-2567438381297475310848635518657180974512) (-43);
   lit N 1372076105130164861564020074178493529151 (-44);
   lit N (-4924179093673498700461153483531075799113) (-46);
   lit N 115326793603133744018238731316982839586 (-46);
   lit N (-1667578310677508029208023423625588832295) (-49);
   lit N 1348437292247918547169070120217729056878 (-51);
   lit N (-5052245092698477071447850656280954693011) (-54);
   lit N 5600638109466570497480415519182233229048 (-57)
].

(* src/c/Cl2.c:177  array Q[13] *)
Definition c_cl2_l_Q2 : list N := [
   lit N 1 0;
   lit N (-6572465772185054284667746526549393897676) (-40);
   lit N 1886234634096976582977630140163583172173 (-40);
   lit N (-3103347567899737687117030083178445406132) (-41);
   lit N 3230860399291224478336071920154030050234 (-42);
   lit N (-2216546569335921728108984951507368387512) (-43);
   lit N 1011949972138985643994631167412420906088 (-44);
   lit N (-3033400935206767852937290458763547850384) (-46);
   lit N 574845461196484305764402346869123192969 (-47);
   lit N (-6408350048413952604351408631173781906861) (-50);
   lit N 3678584366662951864267349037579031493395 (-52);
   lit N (-8240439699357036167611014086997683837396) (-55);
   lit N 3041049046123062158788159773779755292771 (-58)
].

(* src/c/Cl2.c:97-208 *)
Definition c_cl2_l (x : car N) : car N :=
  let PI := lit N 314159265358979323846264338327950288 (-35) in
  let PI2 := (lit N 2 0) * PI in
  let PIH := PI / (lit N 2 0) in
  let PI28 := PI * PI / (lit N 8 0) in
  let sgn := lit N 1 0 in
  let '(x, sgn) :=
    if ltb N x (lit N 0 0) then
      let x := opp N x in
      let sgn := lit N (-1) 0 in
      (x, sgn)
    else
      (x, sgn) in
  let x :=
    if leb N PI2 x then
      let x := nfmod N x PI2 in
      x
    else
      x in
  let '(x, sgn) :=
    if ltb N PI x then
      let p0 := lit N 628125 (-5) in
      let p1 := lit N 19353071795864769252867665590057683943 (-40) in
      let x := p0 - x + p1 in
      let sgn := opp N sgn in
      (x, sgn)
    else
      (x, sgn) in
  if eqb N x (lit N 0 0) then
    x
  else if eqb N x PI then
    lit N 0 0
  else
    let h := lit N 0 0 in
    let h :=
      if ltb N x PIH then
        let y := x * x in
        let z := y - PI28 in
        let z2 := z * z in
        let z4 := z2 * z2 in
        let z8 := z4 * z4 in
        let p := (aref N c_cl2_l_P 0) + z * (aref N c_cl2_l_P 1) + z2 * ((aref N c_cl2_l_P 2) + z * (aref N c_cl2_l_P 3)) + z4 * ((aref N c_cl2_l_P 4) + z * (aref N c_cl2_l_P 5) + z2 * ((aref N c_cl2_l_P 6) + z * (aref N c_cl2_l_P 7))) + z8 * (aref N c_cl2_l_P 8) in
        let q := (aref N c_cl2_l_Q 0) + z * (aref N c_cl2_l_Q 1) + z2 * ((aref N c_cl2_l_Q 2) + z * (aref N c_cl2_l_Q 3)) + z4 * ((aref N c_cl2_l_Q 4) + z * (aref N c_cl2_l_Q 5) + z2 * ((aref N c_cl2_l_Q 6) + z * (aref N c_cl2_l_Q 7))) + z8 * (aref N c_cl2_l_Q 8) in
        let h := x * ((lit N 1 0) - (nlog N x) + y * p / q) in
        h
      else
        let y := PI - x in
        let z := y * y - PI28 in
        let z2 := z * z in
        let z4 := z2 * z2 in
        let z8 := z4 * z4 in
        let p := (aref N c_cl2_l_P2 0) + z * (aref N c_cl2_l_P2 1) + z2 * ((aref N c_cl2_l_P2 2) + z * (aref N c_cl2_l_P2 3)) + z4 * ((aref N c_cl2_l_P2 4) + z * (aref N c_cl2_l_P2 5) + z2 * ((aref N c_cl2_l_P2 6) + z * (aref N c_cl2_l_P2 7))) + z8 * ((aref N c_cl2_l_P2 8) + z * (aref N c_cl2_l_P2 9) + z2 * ((aref N c_cl2_l_P2 10) + z * (aref N c_cl2_l_P2 11)) + z4 * (aref N c_cl2_l_P2 12)) in
        let q := (aref N c_cl2_l_Q2 0) + z * (aref N c_cl2_l_Q2 1) + z2 * ((aref N c_cl2_l_Q2 2) + z * (aref N c_cl2_l_Q2 3)) + z4 * ((aref N c_cl2_l_Q2 4) + z * (aref N c_cl2_l_Q2 5) + z2 * ((aref N c_cl2_l_Q2 6) + z * (aref N c_cl2_l_Q2 7))) + z8 * ((aref N c_cl2_l_Q2 8) + z * (aref N c_cl2_l_Q2 9) + z2 * ((aref N c_cl2_l_Q2 10) + z * (aref N c_cl2_l_Q2 11)) + z4 * (aref N c_cl2_l_Q2 12)) in
        let h := y * p / q in
        h in
    sgn * h.

(* src/c/Cl3.c:43  array P[4] *)
Definition c_cl3_d_P : list N := [
   lit N (-75000000000000001) (-17);
   lit N 15707637881835541 (-18);
   lit N (-35426736843494423) (-21);
   lit N (-24408931585123682) (-23)
].

(* src/c/Cl3.c:47  array Q[4] *)
Definition c_cl3_d_Q : list N := [
   lit N 1 0;
   lit N (-25573146805410089) (-18);
   lit N 1501977485307505 (-19);
   lit N (-10648552418111624) (-23)
].

(* src/c/Cl3.c:57  array P[6] *)
Definition c_cl3_d_P2 : list N := [
   lit N (-49017024647634973) (-17);
   lit N 4155915522466094 (-16);
   lit N (-79425531417806701) (-18);
   lit N 59420152260602943 (-19);
   lit N (-1830222716354019) (-19);
   lit N 18027408929418533 (-22)
].

(* src/c/Cl3.c:62  array Q[6] *)
Definition c_cl3_d_Q2 : list N := [
   lit N 1 0;
   lit N (-19495887541644712) (-17);
   lit N 12059410236484074 (-18);
   lit N (-2523588946730162) (-19);
   lit N 10199322763377861 (-22);
   lit N 19612106499469264 (-25)
].

(* src/c/Cl3.c:16-79 *)
Definition c_cl3_d (x : car N) : car N :=
  let PI := lit N 314159265358979324 (-17) in
  let PI2 := (lit N 2 0) * PI in
  let PIH := PI / (lit N 2 0) in
  let PI28 := PI * PI / (lit N 8 0) in
  let zeta3 := lit N 12020569031595943 (-16) in
  let x :=
    if ltb N x (lit N 0 0) then
      let x := opp N x in
      x
    else
      x in
  let x :=
    if leb N PI2 x then
      let x := nfmod N x PI2 in
      x
    else
      x in
  let x :=
    if ltb N PI x then
      let p0 := lit N 628125 (-5) in
      let p1 := lit N 19353071795864769253 (-22) in
      let x := p0 - x + p1 in
      x
    else
      x in
  if eqb N x (lit N 0 0) then
    zeta3
  else
    let h := lit N 0 0 in
    let h :=
      if ltb N x PIH then
        let y := x * x in
        let y2 := y * y in
        let p := (aref N c_cl3_d_P 0) + y * (aref N c_cl3_d_P 1) + y2 * ((aref N c_cl3_d_P 2) + y * (aref N c_cl3_d_P 3)) in
        let q := (aref N c_cl3_d_Q 0) + y * (aref N c_cl3_d_Q 1) + y2 * ((aref N c_cl3_d_Q 2) + y * (aref N c_cl3_d_Q 3)) in
        let h := zeta3 + y * (p / q + (nlog N x) / (lit N 2 0)) in
        h
      else
        let y := PI - x in
        let z := y * y - PI28 in
        let z2 := z * z in
        let z4 := z2 * z2 in
        let p := (aref N c_cl3_d_P2 0) + z * (aref N c_cl3_d_P2 1) + z2 * ((aref N c_cl3_d_P2 2) + z * (aref N c_cl3_d_P2 3)) + z4 * ((aref N c_cl3_d_P2 4) + z * (aref N c_cl3_d_P2 5)) in
        let q := (aref N c_cl3_d_Q2 0) + z * (aref N c_cl3_d_Q2 1) + z2 * ((aref N c_cl3_d_Q2 2) + z * (aref N c_cl3_d_Q2 3)) + z4 * ((aref N c_cl3_d_Q2 4) + z * (aref N c_cl3_d_Q2 5)) in
        let h := p / q in
        h in
    h.

(* src/c/Cl3.c:115  array P[9] *)
Definition c_cl3_l_P : list N := [
   lit N (-7543014859124236086513359303676733979191) (-40);
   lit N 6402301836868117230156416581268033099875 (-41);
   lit N (-2127896098530218208963041584986434591351) (-42);
   lit N 346316573118235770518327954080878215212 (-43);
   lit N (-2754862729116033380287404534774919686497) (-46);
   lit N 8052538909862304289974104174276673516832 (-49);
   lit N 1346114649676610056675054469405688579693 (-51);
   lit N (-9624573206929882592200009480606020302094) (-54);
   lit N 8275206821858140239162250779757575466957 (-57)
].

(* src/c/Cl3.c:126  array Q[9] *)
Definition c_cl3_l_Q : list N := [
   lit N 1 0;
   lit N (-8951892304715004068142060061380434166813) (-41);
   lit N 3220693717342225233144437822487371940443 (-42);
   lit N (-5958192714621426181787114562889325229941) (-44);
   lit N 6014846196895560469030445734629791881016 (-46);
   lit N (-3236076181461994705051496031602571907271) (-48);
   lit N 8340438662048507021623726184074556662658 (-51);
   lit N (-7892956808623089379250167198187183753861) (-54);
   lit N 1129224149808716947279552120998699589829 (-57)
].

(* src/c/Cl3.c:149  array P[23] *)
Definition c_cl3_l_P2 : list N := [
   lit N (-4901702464763497295023867883920487195585) (-40);
   lit N 1383627100551763417738051599449773818178 (-39);
   lit N (-1844002682148364621305380083013461847933) (-39);
   lit N 1563880808732850065996446127297492925273 (-39);
   lit N (-9527454451278452672142805742734474223237) (-40);
   lit N 444430450911701544225328973330896107777 (-39);
   lit N (-1647875030685306314220378800538115071507) (-40);
   lit N 4967825071601030726970818647842992410835 (-41);
   lit N (-1233860796084952133261104412894436518532) (-41);
   lit N 254127903826690898751667493180368313191 (-41);
   lit N (-4345955367166196341753615932772484893528) (-43);
   lit N 6151865219319515057283373610462827653393 (-44);
   lit N (-7156818018509654192384040775515653410043) (-45);
   lit N 6767889054848634496309672687089961659404 (-46);
   lit N (-5125309226510821380097226378219650957199) (-47);
   lit N 304885953785697263557781326421534768207 (-47);
   lit N (-1389976271585941361238252210621219258086) (-49);
   lit N 4704164267289991379740337499442804533393 (-51);
   lit N (-113234267009221667681370297710198816817) (-51);
   lit N 1824345098049373687569378456747139377638 (-54);
   lit N (-179164145477780711494835714200786785793) (-55);
   lit N 9108765355959209109895175829397816299966 (-59);
   lit N (-1660401736402055166724718838052384514483) (-61)
].

(* src/c/Cl3.c:174  array Q[23] *)
Definition c_cl3_l_Q2 : list N := [
   lit N 1 0;
   lit N (-2169855465456334109398757427681231252557) (-39);
   lit N 2322591192513290976964726281913672818074 (-39);
   lit N (-1625275527588871360012554245669893880287) (-39);
   lit N 8307827568524387115453112563337808771609 (-40);
   lit N (-3283520342971423622595752570043633453066) (-40);
   lit N 1036112385177655663181226022787541960128 (-40);
   lit N (-2658049675854302301943410969110308213449) (-41);
   lit N 5594232916811019674312451829387056772971 (-42);
   lit N (-9682117420514440669170644446720530951119) (-43);
   lit N 1373775076479943342597652514135717056402 (-43);
   lit N (-1585377827830451443222728940538258932617) (-44);
   lit N 1469487119911154060364041910223012615302 (-45);
   lit N (-1075235400618754592467376790070172663512) (-46);
   lit N 6072406717259994215240055677751661462408 (-48);
   lit N (-257131883916690843025432284949511567215) (-48);
   lit N 7860204435599274911316716981969539571217 (-51);
   lit N (-1647194263529074575838983448164465153777) (-52);
   lit N 2194513208755261829948257460166939183883 (-54);
   lit N (-1645669178927884807010050119309005828655) (-56);
   lit N 5496854459511181731052565995680338061501 (-59);
   lit N (-4060391001681163801807157030538815464753) (-62);
   lit N (-1500455700173452211389785169624351996026) (-65)
].

(* src/c/Cl3.c:88-221 *)
Definition c_cl3_l (x : car N) : car N :=
  let PI := lit N 314159265358979323846264338327950288 (-35) in
  let PI2 := (lit N 2 0) * PI in
  let PIH := PI / (lit N 2 0) in
  let PI28 := PI * PI / (lit N 8 0) in
  let zeta3 := lit N 12020569031595942853997381615114499908 (-37) in
  let x :=
    if ltb N x (lit N 0 0) then
      let x := opp N x in
      x
    else
      x in
  let x :=
    if leb N PI2 x then
      let x := nfmod N x PI2 in
      x
    else
      x in
  let x :=
    if ltb N PI x then
      let p0 := lit N 628125 (-5) in
      let p1 := lit N 19353071795864769252867665590057683943 (-40) in
      let x := p0 - x + p1 in
      x
    else
      x in
  if eqb N x (lit N 0 0) then
    zeta3
  else
    let h := lit N 0 0 in
    let h :=
      if ltb N x PIH then
        let y := x * x in
        let z := y - PI28 in
        let z2 := z * z in
        let z4 := z2 * z2 in
        let z8 := z4 * z4 in
        let p := (aref N c_cl3_l_P 0) + z * (aref N c_cl3_l_P 1) + z2 * ((aref N c_cl3_l_P 2) + z * (aref N c_cl3_l_P 3)) + z4 * ((aref N c_cl3_l_P 4) + z * (aref N c_cl3_l_P 5) + z2 * ((aref N c_cl3_l_P 6) + z * (aref N c_cl3_l_P 7))) + z8 * (aref N c_cl3_l_P 8) in
        let q := (aref N c_cl3_l_Q 0) + z * (aref N c_cl3_l_Q 1) + z2 * ((aref N c_cl3_l_Q 2) + z * (aref N c_cl3_l_Q 3)) + z4 * ((aref N c_cl3_l_Q 4) + z * (aref N c_cl3_l_Q 5) + z2 * ((aref N c_cl3_l_Q 6) + z * (aref N c_cl3_l_Q 7))) + z8 * (aref N c_cl3_l_Q 8) in
        let h := zeta3 + y * (p / q + (nlog N x) / (lit N 2 0)) in
        h
      else
        let y := PI - x in
        let z := y * y - PI28 in
        let z2 := z * z in
        let z4 := z2 * z2 in
        let z8 := z4 * z4 in
        let z16 := z8 * z8 in
        let p := (aref N c_cl3_l_P2 0) + z * (aref N c_cl3_l_P2 1) + z2 * ((aref N c_cl3_l_P2 2) + z * (aref N c_cl3_l_P2 3)) + z4 * ((aref N c_cl3_l_P2 4) + z * (aref N c_cl3_l_P2 5) + z2 * ((aref N c_cl3_l_P2 6) + z * (aref N c_cl3_l_P2 7))) + z8 * ((aref N c_cl3_l_P2 8) + z * (aref N c_cl3_l_P2 9) + z2 * ((aref N c_cl3_l_P2 10) + z * (aref N c_cl3_l_P2 11)) + z4 * ((aref N c_cl3_l_P2 12) + z * (aref N c_cl3_l_P2 13) + z2 * ((aref N c_cl3_l_P2 14) + z * (aref N c_cl3_l_P2 15)))) + z16 * ((aref N c_cl3_l_P2 16) + z * (aref N c_cl3_l_P2 17) + z2 * ((aref N c_cl3_l_P2 18) + z * (aref N c_cl3_l_P2 19)) + z4 * ((aref N c_cl3_l_P2 20) + z * (aref N c_cl3_l_P2 21) + z2 * (aref N c_cl3_l_P2 22))) in
        let q := (aref N c_cl3_l_Q2 0) + z * (aref N c_cl3_l_Q2 1) + z2 * ((aref N c_cl3_l_Q2 2) + z * (aref N c_cl3_l_Q2 3)) + z4 * ((aref N c_cl3_l_Q2 4) + z * (aref N c_cl3_l_Q2 5) + z2 * ((aref N c_cl3_l_Q2 6) + z * (aref N c_cl3_l_Q2 7))) + z8 * ((aref N c_cl3_l_Q2 8) + z * (aref N c_cl3_l_Q2 9) + z2 * ((aref N c_cl3_l_Q2 10) + z * (aref N c_cl3_l_Q2 11)) + z4 * ((aref N c_cl3_l_Q2 12) + z * (aref N c_cl3_l_Q2 13) + z2 * ((aref N c_cl3_l_Q2 14) + z * (aref N c_cl3_l_Q2 15)))) + z16 * ((aref N c_cl3_l_Q2 16) + z * (aref N c_cl3_l_Q2 17) + z2 * ((aref N c_cl3_l_Q2 18) + z * (aref N c_cl3_l_Q2 19)) + z4 * ((aref N c_cl3_l_Q2 20) + z * (aref N c_cl3_l_Q2 21) + z2 * (aref N c_cl3_l_Q2 22))) in
        let h := p / q in
        h in
    h.

(* src/c/Cl4.c:48  array P[4] *)
Definition c_cl4_d_P : list N := [
   lit N (-30555555555555556) (-17);
   lit N 60521392328447206 (-19);
   lit N (-19587493942041528) (-21);
   lit N (-31137343767030358) (-24)
].

(* src/c/Cl4.c:52  array Q[4] *)
Definition c_cl4_d_Q : list N := [
   lit N 1 0;
   lit N (-22079728398400851) (-18);
   lit N 10887447112236682 (-20);
   lit N (-61847621370547954) (-24)
].

(* src/c/Cl4.c:63  array P[6] *)
Definition c_cl4_d_P2 : list N := [
   lit N 76223911686491336 (-17);
   lit N (-2433958736826726) (-16);
   lit N 28715364937979943 (-18);
   lit N (-15368612510964667) (-19);
   lit N 36261044225761673 (-21);
   lit N (-28557977333851308) (-23)
].

(* src/c/Cl4.c:68  array Q[6] *)
Definition c_cl4_d_Q2 : list N := [
   lit N 1 0;
   lit N (-17465715261403233) (-17);
   lit N 95439417991615653 (-19);
   lit N (-17325070821666274) (-20);
   lit N 59283675098376635 (-23);
   lit N 9412757577336123 (-25)
].

(* src/c/Cl4.c:16-86 *)
Definition c_cl4_d (x : car N) : car N :=
  let PI := lit N 314159265358979324 (-17) in
  let PI2 := (lit N 2 0) * PI in
  let PIH := PI / (lit N 2 0) in
  let PI28 := PI * PI / (lit N 8 0) in
  let zeta3 := lit N 12020569031595943 (-16) in
  let sgn := lit N 1 0 in
  let '(x, sgn) :=
    if ltb N x (lit N 0 0) then
      let x := opp N x in
      let sgn := lit N (-1) 0 in
      (x, sgn)
    else
      (x, sgn) in
  let x :=
    if leb N PI2 x then
      let x := nfmod N x PI2 in
      x
    else
      x in
  let '(x, sgn) :=
    if ltb N PI x then
      let p0 := lit N 628125 (-5) in
      let p1 := lit N 19353071795864769253 (-22) in
      let x := p0 - x + p1 in
      let sgn := opp N sgn in
      (x, sgn)
    else
      (x, sgn) in
  if eqb N x (lit N 0 0) then
    x
  else if eqb N x PI then
    lit N 0 0
  else
    let h := lit N 0 0 in
    let h :=
      if ltb N x PIH then
        let y := x * x in
        let y2 := y * y in
        let p := (aref N c_cl4_d_P 0) + y * (aref N c_cl4_d_P 1) + y2 * ((aref N c_cl4_d_P 2) + y * (aref N c_cl4_d_P 3)) in
        let q := (aref N c_cl4_d_Q 0) + y * (aref N c_cl4_d_Q 1) + y2 * ((aref N c_cl4_d_Q 2) + y * (aref N c_cl4_d_Q 3)) in
        let h := x * (zeta3 + y * (p / q + (nlog N x) / (lit N 6 0))) in
        h
      else
        let y := PI - x in
        let z := y * y - PI28 in
        let z2 := z * z in
        let z4 := z2 * z2 in
        let p := (aref N c_cl4_d_P2 0) + z * (aref N c_cl4_d_P2 1) + z2 * ((aref N c_cl4_d_P2 2) + z * (aref N c_cl4_d_P2 3)) + z4 * ((aref N c_cl4_d_P2 4) + z * (aref N c_cl4_d_P2 5)) in
        let q := (aref N c_cl4_d_Q2 0) + z * (aref N c_cl4_d_Q2 1) + z2 * ((aref N c_cl4_d_Q2 2) + z * (aref N c_cl4_d_Q2 3)) + z4 * ((aref N c_cl4_d_Q2 4) + z * (aref N c_cl4_d_Q2 5)) in
        let h := y * p / q in
        h in
    sgn * h.

(* src/c/Cl4.c:127  array P[9] *)
Definition c_cl4_l_P : list N := [
   lit N (-3064148293902562247016704418203843255123) (-40);
   lit N 2505569295848759195239609343375835160555 (-41);
   lit N (-8092489304915887233846804452184668671559) (-43);
   lit N 1306550392088097227871332697836673781161 (-44);
   lit N (-109186119574801904204180141341372214952) (-45);
   lit N 4290976258123337917062729924440640694818 (-49);
   lit N (-482705787503594203965321741556461961333) (-51);
   lit N (-7817994926896706571532523150572289005814) (-55);
   lit N 1005354194675259498587105145642652708124 (-57)
].

(* src/c/Cl4.c:138  array Q[9] *)
Definition c_cl4_l_Q : list N := [
   lit N 1 0;
   lit N (-8405033099067044445000733863730421988529) (-41);
   lit N 282711346719231501697678999804167286217 (-41);
   lit N (-4865778884542162517878400745754972885997) (-44);
   lit N 4544079814149520679837030712405877787979 (-46);
   lit N (-2246626075063535176123041843073598887706) (-48);
   lit N 5278103491358313047352307496085513128432 (-51);
   lit N (-4503548404587830179829476685164670510929) (-54);
   lit N 5683277279497885707083902179699889410498 (-58)
].

(* src/c/Cl4.c:161  array P[13] *)
Definition c_cl4_l_P2 : list N := [
   lit N 7622391168649133627869594744879702180493 (-40);
   lit N (-101023189114826458018408115001186884622) (-38);
   lit N 5593311843617106683456367723756675040735 (-40);
   lit N (-1750142535337254911463918175625637736546) (-40);
   lit N 3444639642923636356477676643239523643873 (-41);
   lit N (-446708963016362562637550393654920895024) (-41);
   lit N 3886778570388940085712534905298979385012 (-43);
   lit N (-226724347518457036910826511350519114073) (-43);
   lit N 8702335438867849048873191203867941600263 (-46);
   lit N (-2109129915929703527128733018891419256495) (-47);
   lit N 2988467123764362417450870076317332442258 (-49);
   lit N (-2133050389878217363160872116919842900528) (-51);
   lit N 537972814394103361112586412708227078209 (-53)
].

(* src/c/Cl4.c:176  array Q[13] *)
Definition c_cl4_l_Q2 : list N := [
   lit N 1 0;
   lit N (-1180687938097183154430487264715729257263) (-39);
   lit N 5601395009696004947928229952758353602894 (-40);
   lit N (-1452335710129900283499882062220239913044) (-40);
   lit N 2262139281960755856101092904992480836291 (-41);
   lit N (-2192073007443907755835491584063761368816) (-42);
   lit N 1329216132182395210305478468336390325445 (-43);
   lit N (-494800226689402061251354563448227185751) (-44);
   lit N 1075239424448883617918347989934070034554 (-46);
   lit N (-1231942925472515536287130721129266117605) (-48);
   lit N 5987816416306400663411961902200439505519 (-51);
   lit N (-6217050327376472635914508068068185584426) (-54);
   lit N (-3160114789318241107017689802541627876077) (-57)
].

(* src/c/Cl4.c:95-207 *)
Definition c_cl4_l (x : car N) : car N :=
  let PI := lit N 314159265358979323846264338327950288 (-35) in
  let PI2 := (lit N 2 0) * PI in
  let PIH := PI / (lit N 2 0) in
  let PI28 := PI * PI / (lit N 8 0) in
  let zeta3 := lit N 12020569031595942853997381615114499908 (-37) in
  let sgn := lit N 1 0 in
  let '(x, sgn) :=
    if ltb N x (lit N 0 0) then
      let x := opp N x in
      let sgn := lit N (-1) 0 in
      (x, sgn)
    else
      (x, sgn) in
  let x :=
    if leb N PI2 x then
      let x := nfmod N x PI2 in
      x
    else
      x in
  let '(x, sgn) :=
    if ltb N PI x then
      let p0 := lit N 628125 (-5) in
      let p1 := lit N 19353071795864769252867665590057683943 (-40) in
      let x := p0 - x + p1 in
      let sgn := opp N sgn in
      (x, sgn)
    else
      (x, sgn) in
  if eqb N x (lit N 0 0) then
    x
  else if eqb N x PI then
    lit N 0 0
  else
    let h := lit N 0 0 in
    let h :=
      if ltb N x PIH then
        let y := x * x in
        let z := y - PI28 in
        let z2 := z * z in
        let z4 := z2 * z2 in
        let z8 := z4 * z4 in
        let p := (aref N c_cl4_l_P 0) + z * (aref N c_cl4_l_P 1) + z2 * ((aref N c_cl4_l_P 2) + z * (aref N c_cl4_l_P 3)) + z4 * ((aref N c_cl4_l_P 4) + z * (aref N c_cl4_l_P 5) + z2 * ((aref N c_cl4_l_P 6) + z * (aref N c_cl4_l_P 7))) + z8 * (aref N c_cl4_l_P 8) in
        let q := (aref N c_cl4_l_Q 0) + z * (aref N c_cl4_l_Q 1) + z2 * ((aref N c_cl4_l_Q 2) + z * (aref N c_cl4_l_Q 3)) + z4 * ((aref N c_cl4_l_Q 4) + z * (aref N c_cl4_l_Q 5) + z2 * ((aref N c_cl4_l_Q 6) + z * (aref N c_cl4_l_Q 7))) + z8 * (aref N c_cl4_l_Q 8) in
        let h := x * (zeta3 + y * (p / q + (nlog N x) / (lit N 6 0))) in
        h
      else
        let y := PI - x in
        let z := y * y - PI28 in
        let z2 := z * z in
        let z4 := z2 * z2 in
        let z8 := z4 * z4 in
        let p := (aref N c_cl4_l_P2 0) + z * (aref N c_cl4_l_P2 1) + z2 * ((aref N c_cl4_l_P2 2) + z * (aref N c_cl4_l_P2 3)) + z4 * ((aref N c_cl4_l_P2 4) + z * (aref N c_cl4_l_P2 5) + z2 * ((aref N c_cl4_l_P2 6) + z * (aref N c_cl4_l_P2 7))) + z8 * ((aref N c_cl4_l_P2 8) + z * (aref N c_cl4_l_P2 9) + z2 * ((aref N c_cl4_l_P2 10) + z * (aref N c_cl4_l_P2 11)) + z4 * (aref N c_cl4_l_P2 12)) in
        let q := (aref N c_cl4_l_Q2 0) + z * (aref N c_cl4_l_Q2 1) + z2 * ((aref N c_cl4_l_Q2 2) + z * (aref N c_cl4_l_Q2 3)) + z4 * ((aref N c_cl4_l_Q2 4) + z * (aref N c_cl4_l_Q2 5) + z2 * ((aref N c_cl4_l_Q2 6) + z * (aref N c_cl4_l_Q2 7))) + z8 * ((aref N c_cl4_l_Q2 8) + z * (aref N c_cl4_l_Q2 9) + z2 * ((aref N c_cl4_l_Q2 10) + z * (aref N c_cl4_l_Q2 11)) + z4 * (aref N c_cl4_l_Q2 12)) in
        let h := y * p / q in
        h in
    sgn * h.

(* src/c/Cl5.c:43  array P[4] *)
Definition c_cl5_d_P : list N := [
   lit N 10369277551433699 (-16);
   lit N (-61354800479984468) (-17);
   lit N 94076401395712763 (-18);
   lit N (-94056155866704436) (-20)
].

(* src/c/Cl5.c:47  array Q[5] *)
Definition c_cl5_d_Q : list N := [
   lit N 1 0;
   lit N (-12073698633244778) (-18);
   lit N 13703409625482991 (-21);
   lit N (-19701280330628469) (-25);
   lit N 219445501844165 (-25)
].

(* src/c/Cl5.c:58  array P[6] *)
Definition c_cl5_d_P2 : list N := [
   lit N (-45930112735784898) (-17);
   lit N 43720705508867954 (-17);
   lit N (-75895226486465095) (-18);
   lit N 52244176912488065 (-19);
   lit N (-15677716622013956) (-20);
   lit N 16641624171748576 (-22)
].

(* src/c/Cl5.c:63  array Q[6] *)
Definition c_cl5_d_Q2 : list N := [
   lit N 1 0;
   lit N (-12211486825401188) (-17);
   lit N 3894007074931362 (-18);
   lit N (-22674805547074318) (-21);
   lit N (-74383354448335299) (-24);
   lit N (-34131758392216437) (-26)
].

(* src/c/Cl5.c:16-80 *)
Definition c_cl5_d (x : car N) : car N :=
  let PI := lit N 314159265358979324 (-17) in
  let PI2 := (lit N 2 0) * PI in
  let PIH := PI / (lit N 2 0) in
  let PI28 := PI * PI / (lit N 8 0) in
  let zeta5 := lit N 10369277551433699 (-16) in
  let x :=
    if ltb N x (lit N 0 0) then
      let x := opp N x in
      x
    else
      x in
  let x :=
    if leb N PI2 x then
      let x := nfmod N x PI2 in
      x
    else
      x in
  let x :=
    if ltb N PI x then
      let p0 := lit N 628125 (-5) in
      let p1 := lit N 19353071795864769253 (-22) in
      let x := p0 - x + p1 in
      x
    else
      x in
  if eqb N x (lit N 0 0) then
    zeta5
  else
    let h := lit N 0 0 in
    let h :=
      if ltb N x PIH then
        let y := x * x in
        let y2 := y * y in
        let p := (aref N c_cl5_d_P 0) + y * (aref N c_cl5_d_P 1) + y2 * ((aref N c_cl5_d_P 2) + y * (aref N c_cl5_d_P 3)) in
        let q := (aref N c_cl5_d_Q 0) + y * (aref N c_cl5_d_Q 1) + y2 * ((aref N c_cl5_d_Q 2) + y * (aref N c_cl5_d_Q 3) + y2 * (aref N c_cl5_d_Q 4)) in
        let h := p / q - (lit N 1 0) / (lit N 24 0) * y2 * (nlog N x) in
        h
      else
        let y := PI - x in
        let z := y * y - PI28 in
        let z2 := z * z in
        let z4 := z2 * z2 in
        let p := (aref N c_cl5_d_P2 0) + z * (aref N c_cl5_d_P2 1) + z2 * ((aref N c_cl5_d_P2 2) + z * (aref N c_cl5_d_P2 3)) + z4 * ((aref N c_cl5_d_P2 4) + z * (aref N c_cl5_d_P2 5)) in
        let q := (aref N c_cl5_d_Q2 0) + z * (aref N c_cl5_d_Q2 1) + z2 * ((aref N c_cl5_d_Q2 2) + z * (aref N c_cl5_d_Q2 3)) + z4 * ((aref N c_cl5_d_Q2 4) + z * (aref N c_cl5_d_Q2 5)) in
        let h := p / q in
        h in
    h.

(* src/c/Cl5.c:116  array P[9] *)
Definition c_cl5_l_P : list N := [
   lit N 1036927755143369926331365486457034168059 (-39);
   lit N (-6658415657850437630906494266561003007593) (-40);
   lit N 1259003016280956661310195617144355854188 (-40);
   lit N (-6212244855421374019684377914106722032147) (-42);
   lit N 1306904675086766776780752497454855872743 (-43);
   lit N (-1301122318938781794973397940423670888074) (-45);
   lit N 5717682046130944699740232163126766430315 (-48);
   lit N (-7166730647779603072734193853044478650519) (-51);
   lit N (-6221283541257953085130453147995995181367) (-54)
].

(* src/c/Cl5.c:127  array Q[9] *)
Definition c_cl5_l_Q : list N := [
   lit N 1 0;
   lit N (-6250494683333583907004116232413530782665) (-41);
   lit N 1473096513856482450087316982512306280017 (-42);
   lit N (-1623646824927319203504705952432918456484) (-44);
   lit N 8353119806924927286335397331658035078824 (-47);
   lit N (-1681466989589289789440503472880056217026) (-49);
   lit N 6148805322164900432117190884093933333085 (-53);
   lit N (-5433659481969077686644650549730628882111) (-57);
   lit N 2805294177992899924191150639021652374105 (-59)
].

(* src/c/Cl5.c:148  array P[22] *)
Definition c_cl5_l_P2 : list N := [
   lit N (-4593011273578489831122037919180632756992) (-40);
   lit N 1401498550034362701805821755409735004849 (-39);
   lit N (-1982304363064711766557880680480142023754) (-39);
   lit N 1759256162035262108299985791199116650552 (-39);
   lit N (-1107291973389099556880709229657630417009) (-39);
   lit N 5268325404326907430154018183034221801285 (-40);
   lit N (-196535865160752299471455769733974660819) (-39);
   lit N 5871957972979889275145683305566978199622 (-41);
   lit N (-1420949697005558567627555469736533751386) (-41);
   lit N 2796107583559495331461649354270877844625 (-42);
   lit N (-4465744740639093809792128449171996370363) (-43);
   lit N 5748894292163274399653883756491192329322 (-44);
   lit N (-5896839706071169994406762984593861583644) (-45);
   lit N 4744162040470895539630087398826359252082 (-46);
   lit N (-2935072474912184831415614463651445914914) (-47);
   lit N 1362917540308020844217793474829589045233 (-48);
   lit N (-4607334782488962303281676898176385641774) (-50);
   lit N 1088416571921417630560594614106156147693 (-51);
   lit N (-169349246682701082918692235411895820117) (-52);
   lit N 1579743944918170026644416986681028224058 (-55);
   lit N (-7454416400034827845657507019398034188457) (-58);
   lit N 1198637161245584739862544324830094607612 (-60)
].

(* src/c/Cl5.c:172  array Q[22] *)
Definition c_cl5_l_Q2 : list N := [
   lit N 1 0;
   lit N (-2221590435607426981424381339809382952069) (-39);
   lit N 2412461871413914536986570795505245816684 (-39);
   lit N (-1694345897219170542301900522084726731706) (-39);
   lit N 8583400353918575152767736792978326398967 (-40);
   lit N (-3312119064957463423272973014087119757079) (-40);
   lit N 1002294898527499697641480925721728343179 (-40);
   lit N (-2413139952253300495006378204579804376275) (-41);
   lit N 4641991091392426345416434800383383313512 (-42);
   lit N (-7106571006177041202150584409076882380159) (-43);
   lit N 8561490223086549530320523664905653696096 (-44);
   lit N (-7967787445964202721461699361010303143885) (-45);
   lit N 5582421743796253821134150677212091680429 (-46);
   lit N (-284800532030919245844589496614005040387) (-46);
   lit N 1014286757743366612938336036904920512828 (-48);
   lit N (-2385238633505776782528334863036613070815) (-50);
   lit N 3420301781310778564389954330829757801274 (-52);
   lit N (-262939899334921225271680457248343597536) (-53);
   lit N 8429482185232205831230867081060289901658 (-57);
   lit N (-5246319511505491796737303878146128855864) (-60);
   lit N (-7761839321681147483054193372291436641588) (-64);
   lit N 2417533650811564066454166411668509913721 (-66)
].

(* src/c/Cl5.c:89-218 *)
Definition c_cl5_l (x : car N) : car N :=
  let PI := lit N 314159265358979323846264338327950288 (-35) in
  let PI2 := (lit N 2 0) * PI in
  let PIH := PI / (lit N 2 0) in
  let PI28 := PI * PI / (lit N 8 0) in
  let zeta5 := lit N 1036927755143369926331365486457034168057 (-39) in
  let x :=
    if ltb N x (lit N 0 0) then
      let x := opp N x in
      x
    else
      x in
  let x :=
    if leb N PI2 x then
      let x := nfmod N x PI2 in
      x
    else
      x in
  let x :=
    if ltb N PI x then
      let p0 := lit N 628125 (-5) in
      let p1 := lit N 19353071795864769252867665590057683943 (-40) in
      let x := p0 - x + p1 in
      x
    else
      x in
  if eqb N x (lit N 0 0) then
    zeta5
  else
    let h := lit N 0 0 in
    let h :=
      if ltb N x PIH then
        let y := x * x in
        let y2 := y * y in
        let y4 := y2 * y2 in
        let y8 := y4 * y4 in
        let p := (aref N c_cl5_l_P 0) + y * (aref N c_cl5_l_P 1) + y2 * ((aref N c_cl5_l_P 2) + y * (aref N c_cl5_l_P 3)) + y4 * ((aref N c_cl5_l_P 4) + y * (aref N c_cl5_l_P 5) + y2 * ((aref N c_cl5_l_P 6) + y * (aref N c_cl5_l_P 7))) + y8 * (aref N c_cl5_l_P 8) in
        let q := (aref N c_cl5_l_Q 0) + y * (aref N c_cl5_l_Q 1) + y2 * ((aref N c_cl5_l_Q 2) + y * (aref N c_cl5_l_Q 3)) + y4 * ((aref N c_cl5_l_Q 4) + y * (aref N c_cl5_l_Q 5) + y2 * ((aref N c_cl5_l_Q 6) + y * (aref N c_cl5_l_Q 7))) + y8 * (aref N c_cl5_l_Q 8) in
        let h := p / q - (lit N 1 0) / (lit N 24 0) * y2 * (nlog N x) in
        h
      else
        let y := PI - x in
        let z := y * y - PI28 in
        let z2 := z * z in
        let z4 := z2 * z2 in
        let z8 := z4 * z4 in
        let z16 := z8 * z8 in
        let p := (aref N c_cl5_l_P2 0) + z * (aref N c_cl5_l_P2 1) + z2 * ((aref N c_cl5_l_P2 2) + z * (aref N c_cl5_l_P2 3)) + z4 * ((aref N c_cl5_l_P2 4) + z * (aref N c_cl5_l_P2 5) + z2 * ((aref N c_cl5_l_P2 6) + z * (aref N c_cl5_l_P2 7))) + z8 * ((aref N c_cl5_l_P2 8) + z * (aref N c_cl5_l_P2 9) + z2 * ((aref N c_cl5_l_P2 10) + z * (aref N c_cl5_l_P2 11)) + z4 * ((aref N c_cl5_l_P2 12) + z * (aref N c_cl5_l_P2 13) + z2 * ((aref N c_cl5_l_P2 14) + z * (aref N c_cl5_l_P2 15)))) + z16 * ((aref N c_cl5_l_P2 16) + z * (aref N c_cl5_l_P2 17) + z2 * ((aref N c_cl5_l_P2 18) + z * (aref N c_cl5_l_P2 19)) + z4 * ((aref N c_cl5_l_P2 20) + z * (aref N c_cl5_l_P2 21))) in
        let q := (aref N c_cl5_l_Q2 0) + z * (aref N c_cl5_l_Q2 1) + z2 * ((aref N c_cl5_l_Q2 2) + z * (aref N c_cl5_l_Q2 3)) + z4 * ((aref N c_cl5_l_Q2 4) + z * (aref N c_cl5_l_Q2 5) + z2 * ((aref N c_cl5_l_Q2 6) + z * (aref N c_cl5_l_Q2 7))) + z8 * ((aref N c_cl5_l_Q2 8) + z * (aref N c_cl5_l_Q2 9) + z2 * ((aref N c_cl5_l_Q2 10) + z * (aref N c_cl5_l_Q2 11)) + z4 * ((aref N c_cl5_l_Q2 12) + z * (aref N c_cl5_l_Q2 13) + z2 * ((aref N c_cl5_l_Q2 14) + z * (aref N c_cl5_l_Q2 15)))) + z16 * ((aref N c_cl5_l_Q2 16) + z * (aref N c_cl5_l_Q2 17) + z2 * ((aref N c_cl5_l_Q2 18) + z * (aref N c_cl5_l_Q2 19)) + z4 * ((aref N c_cl5_l_Q2 20) + z * (aref N c_cl5_l_Q2 21))) in
        let h := p / q in
        h in
    h.

(* src/c/Cl6.c:47  array P[4] *)
Definition c_cl6_d_P : list N := [
   lit N 10369277551433699 (-16);
   lit N (-2087195444107175) (-16);
   lit N 20652251045312954 (-18);
   lit N (-138343813825684) (-18)
].

(* src/c/Cl6.c:51  array Q[4] *)
Definition c_cl6_d_Q : list N := [
   lit N 1 0;
   lit N (-80784096827362542) (-19);
   lit N 58074568862993102 (-22);
   lit N (-51960620033050114) (-26)
].

(* src/c/Cl6.c:61  array P[5] *)
Definition c_cl6_d_P2 : list N := [
   lit N 7954450457802705 (-16);
   lit N (-19255025309738589) (-17);
   lit N 15805208288846591 (-18);
   lit N (-54175380521534706) (-20);
   lit N 67577493541009068 (-22)
].

(* src/c/Cl6.c:66  array Q[6] *)
Definition c_cl6_d_Q2 : list N := [
   lit N 1 0;
   lit N (-70798422394109274) (-18);
   lit N 71744189715634762 (-20);
   lit N 39098747334347093 (-22);
   lit N 35669441618295266 (-24);
   lit N 25315391843409925 (-26)
].

(* src/c/Cl6.c:16-83 *)
Definition c_cl6_d (x : car N) : car N :=
  let PI := lit N 314159265358979324 (-17) in
  let PI2 := (lit N 2 0) * PI in
  let PIH := PI / (lit N 2 0) in
  let PI28 := PI * PI / (lit N 8 0) in
  let sgn := lit N 1 0 in
  let '(x, sgn) :=
    if ltb N x (lit N 0 0) then
      let x := opp N x in
      let sgn := lit N (-1) 0 in
      (x, sgn)
    else
      (x, sgn) in
  let x :=
    if leb N PI2 x then
      let x := nfmod N x PI2 in
      x
    else
      x in
  let '(x, sgn) :=
    if ltb N PI x then
      let p0 := lit N 628125 (-5) in
      let p1 := lit N 19353071795864769253 (-22) in
      let x := p0 - x + p1 in
      let sgn := opp N sgn in
      (x, sgn)
    else
      (x, sgn) in
  if eqb N x (lit N 0 0) then
    x
  else if eqb N x PI then
    lit N 0 0
  else
    let h := lit N 0 0 in
    let h :=
      if ltb N x PIH then
        let y := x * x in
        let y2 := y * y in
        let p := (aref N c_cl6_d_P 0) + y * (aref N c_cl6_d_P 1) + y2 * ((aref N c_cl6_d_P 2) + y * (aref N c_cl6_d_P 3)) in
        let q := (aref N c_cl6_d_Q 0) + y * (aref N c_cl6_d_Q 1) + y2 * ((aref N c_cl6_d_Q 2) + y * (aref N c_cl6_d_Q 3)) in
        let h := x * (p / q - (lit N 1 0) / (lit N 120 0) * y2 * (nlog N x)) in
        h
      else
        let y := PI - x in
        let z := y * y - PI28 in
        let z2 := z * z in
        let z4 := z2 * z2 in
        let p := (aref N c_cl6_d_P2 0) + z * (aref N c_cl6_d_P2 1) + z2 * ((aref N c_cl6_d_P2 2) + z * (aref N c_cl6_d_P2 3)) + z4 * (aref N c_cl6_d_P2 4) in
        let q := (aref N c_cl6_d_Q2 0) + z * (aref N c_cl6_d_Q2 1) + z2 * ((aref N c_cl6_d_Q2 2) + z * (aref N c_cl6_d_Q2 3)) + z4 * ((aref N c_cl6_d_Q2 4) + z * (aref N c_cl6_d_Q2 5)) in
        let h := y * p / q in
        h in
    sgn * h.

(* src/c/Cl6.c:123  array P[8] *)
Definition c_cl6_l_P : list N := [
   lit N 1036927755143369926331365486457034168065 (-39);
   lit N (-2660560946045374649259428347964066528011) (-40);
   lit N 3329570271230632447915886341952627002426 (-41);
   lit N (-1510595936295153930344410647448777133733) (-42);
   lit N 3131533341760691526435978423292286070924 (-44);
   lit N (-3182202696889770889861949924913754657738) (-46);
   lit N 1502154861660275591001686250751888925088 (-48);
   lit N (-253030142517091747164769792403226988434) (-50)
].

(* src/c/Cl6.c:133  array Q[9] *)
Definition c_cl6_l_Q : list N := [
   lit N 1 0;
   lit N (-6337305283354669272645114902626308743354) (-41);
   lit N 1515620531828504731765511986731389626117 (-42);
   lit N (-1701012841394302177981550973231789765121) (-44);
   lit N 9012790948792709615665799862069582273389 (-47);
   lit N (-1955750290547090446555264920849355913809) (-49);
   lit N 1125635205633553699806475976092388993586 (-52);
   lit N (-3414909518610593288941467030106839852619) (-56);
   lit N 2731334891221423274951783991445121711509 (-59)
].

(* src/c/Cl6.c:154  array P[23] *)
Definition c_cl6_l_P2 : list N := [
   lit N 7954450457802705032518570844852029808415 (-40);
   lit N (-1979654488543484542796423982466857472184) (-39);
   lit N 2434867838946397357375315454192170616124 (-39);
   lit N (-1964425998279360367244413531701686788004) (-39);
   lit N 1163493279389496220127087149386609481819 (-39);
   lit N (-5364077005864988957572986042062186039135) (-40);
   lit N 1991451450604170643782194918551652235412 (-40);
   lit N (-6075285910357297275594322567072299864962) (-41);
   lit N 1540382986766113987053539678403427170024 (-41);
   lit N (-3262283827598416962628772540178344338003) (-42);
   lit N 5770138838748397202025797274794204575025 (-43);
   lit N (-8484414959829259817085085809443855753227) (-44);
   lit N 1028090385459798495867863677951863946204 (-44);
   lit N (-1013685169455150840547824060456243954836) (-45);
   lit N 7999945234418244274075829768407844359782 (-47);
   lit N (-4952891486250932501218801565751739529817) (-48);
   lit N 234881523386717153900980606366035648883 (-48);
   lit N (-8290157415183592261669982284003187521338) (-51);
   lit N 2099356902503040843690329973355214193519 (-52);
   lit N (-362478099503605813442774830778005972526) (-53);
   lit N 394284791022862272548205787855218237521 (-55);
   lit N (-2345906560814244916985213074113978675514) (-58);
   lit N 5497397893599040802663932665275542828208 (-61)
].

(* src/c/Cl6.c:179  array Q[23] *)
Definition c_cl6_l_Q2 : list N := [
   lit N 1 0;
   lit N (-2317470577719543024485753572740604958739) (-39);
   lit N 2657078821297694611895446031834996152906 (-39);
   lit N (-1998173132007341993679896448865948292346) (-39);
   lit N 1101652499108299120694677562656808297062 (-39);
   lit N (-4714605359562262375267465521671001054303) (-40);
   lit N 1617420872947402588595250105881596491551 (-40);
   lit N (-4529168129075646577813431788905728209674) (-41);
   lit N 1044157981053687467828669325295558925061 (-41);
   lit N (-198441595302705101051143972552414029351) (-41);
   lit N 3093087663153734127422305801345643761966 (-43);
   lit N (-3908979880746900739955710393100816436543) (-44);
   lit N 3932920430793276196786510478170661211424 (-45);
   lit N (-3069947838220881985252402565106441299447) (-46);
   lit N 1796593245006812188327588557650112423621 (-47);
   lit N (-754766078792206182412416698905661019802) (-48);
   lit N 2154298038494995924762486242481055338867 (-50);
   lit N (-3878728177963117873055418445714408964957) (-52);
   lit N 3933225726003866890018525083062372496392 (-54);
   lit N (-1816273280755794317176857308245737055922) (-56);
   lit N 199937625510483036018035239637041306188 (-58);
   lit N 1409076511280851323909957285090860978867 (-62);
   lit N 1442619469440665628791395058095914522784 (-65)
].

(* src/c/Cl6.c:92-226 *)
Definition c_cl6_l (x : car N) : car N :=
  let PI := lit N 314159265358979323846264338327950288 (-35) in
  let PI2 := (lit N 2 0) * PI in
  let PIH := PI / (lit N 2 0) in
  let PI28 := PI * PI / (lit N 8 0) in
  let sgn := lit N 1 0 in
  let '(x, sgn) :=
    if ltb N x (lit N 0 0) then
      let x := opp N x in
      let sgn := lit N (-1) 0 in
      (x, sgn)
    else
      (x, sgn) in
  let x :=
    if leb N PI2 x then
      let x := nfmod N x PI2 in
      x
    else
      x in
  let '(x, sgn) :=
    if ltb N PI x then
      let p0 := lit N 628125 (-5) in
      let p1 := lit N 19353071795864769252867665590057683943 (-40) in
      let x := p0 - x + p1 in
      let sgn := opp N sgn in
      (x, sgn)
    else
      (x, sgn) in
  if eqb N x (lit N 0 0) then
    x
  else if eqb N x PI then
    lit N 0 0
  else
    let h := lit N 0 0 in
    let h :=
      if ltb N x PIH then
        let y := x * x in
        let y2 := y * y in
        let y4 := y2 * y2 in
        let y8 := y4 * y4 in
        let p := (aref N c_cl6_l_P 0) + y * (aref N c_cl6_l_P 1) + y2 * ((aref N c_cl6_l_P 2) + y * (aref N c_cl6_l_P 3)) + y4 * ((aref N c_cl6_l_P 4) + y * (aref N c_cl6_l_P 5) + y2 * ((aref N c_cl6_l_P 6) + y * (aref N c_cl6_l_P 7))) in
        let q := (aref N c_cl6_l_Q 0) + y * (aref N c_cl6_l_Q 1) + y2 * ((aref N c_cl6_l_Q 2) + y * (aref N c_cl6_l_Q 3)) + y4 * ((aref N c_cl6_l_Q 4) + y * (aref N c_cl6_l_Q 5) + y2 * ((aref N c_cl6_l_Q 6) + y * (aref N c_cl6_l_Q 7))) + y8 * (aref N c_cl6_l_Q 8) in
        let h := x * (p / q - (lit N 1 0) / (lit N 120 0) * y2 * (nlog N x)) in
        h
      else
        let y := PI - x in
        let z := y * y - PI28 in
        let z2 := z * z in
        let z4 := z2 * z2 in
        let z8 := z4 * z4 in
        let z16 := z8 * z8 in
        let p := (aref N c_cl6_l_P2 0) + z * (aref N c_cl6_l_P2 1) + z2 * ((aref N c_cl6_l_P2 2) + z * (aref N c_cl6_l_P2 3)) + z4 * ((aref N c_cl6_l_P2 4) + z * (aref N c_cl6_l_P2 5) + z2 * ((aref N c_cl6_l_P2 6) + z * (aref N c_cl6_l_P2 7))) + z8 * ((aref N c_cl6_l_P2 8) + z * (aref N c_cl6_l_P2 9) + z2 * ((aref N c_cl6_l_P2 10) + z * (aref N c_cl6_l_P2 11)) + z4 * ((aref N c_cl6_l_P2 12) + z * (aref N c_cl6_l_P2 13) + z2 * ((aref N c_cl6_l_P2 14) + z * (aref N c_cl6_l_P2 15)))) + z16 * ((aref N c_cl6_l_P2 16) + z * (aref N c_cl6_l_P2 17) + z2 * ((aref N c_cl6_l_P2 18) + z * (aref N c_cl6_l_P2 19)) + z4 * ((aref N c_cl6_l_P2 20) + z * (aref N c_cl6_l_P2 21) + z2 * (aref N c_cl6_l_P2 22))) in
        let q := (aref N c_cl6_l_Q2 0) + z * (aref N c_cl6_l_Q2 1) + z2 * ((aref N c_cl6_l_Q2 2) + z * (aref N c_cl6_l_Q2 3)) + z4 * ((aref N c_cl6_l_Q2 4) + z * (aref N c_cl6_l_Q2 5) + z2 * ((aref N c_cl6_l_Q2 6) + z * (aref N c_cl6_l_Q2 7))) + z8 * ((aref N c_cl6_l_Q2 8) + z * (aref N c_cl6_l_Q2 9) + z2 * ((aref N c_cl6_l_Q2 10) + z * (aref N c_cl6_l_Q2 11)) + z4 * ((aref N c_cl6_l_Q2 12) + z * (aref N c_cl6_l_Q2 13) + z2 * ((aref N c_cl6_l_Q2 14) + z * (aref N c_cl6_l_Q2 15)))) + z16 * ((aref N c_cl6_l_Q2 16) + z * (aref N c_cl6_l_Q2 17) + z2 * ((aref N c_cl6_l_Q2 18) + z * (aref N c_cl6_l_Q2 19)) + z4 * ((aref N c_cl6_l_Q2 20) + z * (aref N c_cl6_l_Q2 21) + z2 * (aref N c_cl6_l_Q2 22))) in
        let h := y * p / q in
        h in
    sgn * h.

(* src/c/Li2.c:34  array P[3] *)
Definition c_li2_f_P : list N := [
   lit N 10000002 (-7);
   lit N (-780790946) (-9);
   lit N 648256871 (-10)
].

(* src/c/Li2.c:35  array Q[3] *)
Definition c_li2_f_Q : list N := [
   lit N 1 0;
   lit N (-103077545) (-8);
   lit N 21121671 (-8)
].

(* src/c/Li2.c:31-81 *)
Definition c_li2_f (x : car N) : car N :=
  let PI := lit N 314159265 (-8) in
  let y := lit N 0 0 in
  let r := lit N 0 0 in
  let s := lit N 1 0 in
  let k1 (y : car N) (r : car N) (s : car N) :=
    let y2 := y * y in
    let p := (aref N c_li2_f_P 0) + y * (aref N c_li2_f_P 1) + y2 * (aref N c_li2_f_P 2) in
    let q := (aref N c_li2_f_Q 0) + y * (aref N c_li2_f_Q 1) + y2 * (aref N c_li2_f_Q 2) in
    r + s * y * p / q in
  if ltb N x (lit N (-1) 0) then
    let l := nlog N ((lit N 1 0) - x) in
    let y := (lit N 1 0) / ((lit N 1 0) - x) in
    let r := (opp N PI) * PI / (lit N 6 0) + l * ((lit N 5 (-1)) * l - (nlog N (opp N x))) in
    let s := lit N 1 0 in
    k1 y r s
  else if eqb N x (lit N (-1) 0) then
    (opp N PI) * PI / (lit N 12 0)
  else if ltb N x (lit N 0 0) then
    let l := nlog1p N (opp N x) in
    let y := x / (x - (lit N 1 0)) in
    let r := (lit N (-5) (-1)) * l * l in
    let s := lit N (-1) 0 in
    k1 y r s
  else if eqb N x (lit N 0 0) then
    x
  else if ltb N x (lit N 5 (-1)) then
    let y := x in
    let r := lit N 0 0 in
    let s := lit N 1 0 in
    k1 y r s
  else if ltb N x (lit N 1 0) then
    let y := (lit N 1 0) - x in
    let r := PI * PI / (lit N 6 0) - (nlog N x) * (nlog1p N (opp N x)) in
    let s := lit N (-1) 0 in
    k1 y r s
  else if eqb N x (lit N 1 0) then
    PI * PI / (lit N 6 0)
  else
    let '(y, r, s) :=
      if ltb N x (lit N 2 0) then
        let l := nlog N x in
        let y := (lit N 1 0) - (lit N 1 0) / x in
        let r := PI * PI / (lit N 6 0) - l * ((nlog N y) + (lit N 5 (-1)) * l) in
        let s := lit N 1 0 in
        (y, r, s)
      else
        let l := nlog N x in
        let y := (lit N 1 0) / x in
        let r := PI * PI / (lit N 3 0) - (lit N 5 (-1)) * l * l in
        let s := lit N (-1) 0 in
        (y, r, s) in
    k1 y r s.

(* src/c/Li2.c:96  array P[6] *)
Definition c_li2_d_P : list N := [
   lit N 9999999999999999502 (-19);
   lit N (-2688392681856542343) (-18);
   lit N 26477222699473109692 (-19);
   lit N (-11538559607887416355) (-19);
   lit N 20886077795020607837 (-20);
   lit N (-10859777134152463084) (-21)
].

(* src/c/Li2.c:104  array Q[7] *)
Definition c_li2_d_Q : list N := [
   lit N 1 0;
   lit N (-29383926818565635485) (-19);
   lit N 32712093293018635389 (-19);
   lit N (-17076702173954289421) (-19);
   lit N 41596017228400603836 (-20);
   lit N (-39801343754084482956) (-21);
   lit N 82743668974466659035 (-23)
].

(* src/c/Li2.c:93-161 *)
Definition c_li2_d (x : car N) : car N :=
  let PI := lit N 31415926535897932 (-16) in
  let y := lit N 0 0 in
  let r := lit N 0 0 in
  let s := lit N 1 0 in
  let k1 (y : car N) (r : car N) (s : car N) :=
    let y2 := y * y in
    let y4 := y2 * y2 in
    let p := (aref N c_li2_d_P 0) + y * (aref N c_li2_d_P 1) + y2 * ((aref N c_li2_d_P 2) + y * (aref N c_li2_d_P 3)) + y4 * ((aref N c_li2_d_P 4) + y * (aref N c_li2_d_P 5)) in
    let q := (aref N c_li2_d_Q 0) + y * (aref N c_li2_d_Q 1) + y2 * ((aref N c_li2_d_Q 2) + y * (aref N c_li2_d_Q 3)) + y4 * ((aref N c_li2_d_Q 4) + y * (aref N c_li2_d_Q 5) + y2 * (aref N c_li2_d_Q 6)) in
    r + s * y * p / q in
  if ltb N x (lit N (-1) 0) then
    let l := nlog N ((lit N 1 0) - x) in
    let y := (lit N 1 0) / ((lit N 1 0) - x) in
    let r := (opp N PI) * PI / (lit N 6 0) + l * ((lit N 5 (-1)) * l - (nlog N (opp N x))) in
    let s := lit N 1 0 in
    k1 y r s
  else if eqb N x (lit N (-1) 0) then
    (opp N PI) * PI / (lit N 12 0)
  else if ltb N x (lit N 0 0) then
    let l := nlog1p N (opp N x) in
    let y := x / (x - (lit N 1 0)) in
    let r := (lit N (-5) (-1)) * l * l in
    let s := lit N (-1) 0 in
    k1 y r s
  else if eqb N x (lit N 0 0) then
    x
  else if ltb N x (lit N 5 (-1)) then
    let y := x in
    let r := lit N 0 0 in
    let s := lit N 1 0 in
    k1 y r s
  else if ltb N x (lit N 1 0) then
    let y := (lit N 1 0) - x in
    let r := PI * PI / (lit N 6 0) - (nlog N x) * (nlog1p N (opp N x)) in
    let s := lit N (-1) 0 in
    k1 y r s
  else if eqb N x (lit N 1 0) then
    PI * PI / (lit N 6 0)
  else
    let '(y, r, s) :=
      if ltb N x (lit N 2 0) then
        let l := nlog N x in
        let y := (lit N 1 0) - (lit N 1 0) / x in
        let r := PI * PI / (lit N 6 0) - l * ((nlog N y) + (lit N 5 (-1)) * l) in
        let s := lit N 1 0 in
        (y, r, s)
      else
        let l := nlog N x in
        let y := (lit N 1 0) / x in
        let r := PI * PI / (lit N 3 0) - (lit N 5 (-1)) * l * l in
        let s := lit N (-1) 0 in
        (y, r, s) in
    k1 y r s.

(* src/c/Li2.c:179  array P[9] *)
Definition c_li2_l_P : list N := [
   lit N 10706105563309304276767353139512463 (-34);
   lit N (-525056559620492749887983310693176896) (-35);
   lit N 103934845791141763662532570563508185 (-34);
   lit N (-106275187429164237285280053453630651) (-34);
   lit N 595754800847361224707276004888482457 (-35);
   lit N (-178704147549824083632603474038547305) (-35);
   lit N 256952343145676978700222949739349644 (-36);
   lit N (-13323724812403449778931802695752644) (-36);
   lit N 791217309833196694976662068263629735 (-40)
].

(* src/c/Li2.c:190  array Q[9] *)
Definition c_li2_l_Q : list N := [
   lit N 1 0;
   lit N (-520360694854541370154051736496901638) (-35);
   lit N 110984640257222420881180161591516337 (-34);
   lit N (-12499759086751451637446790387567793) (-33);
   lit N 797919868560471967115958363930214958 (-35);
   lit N (-287732383715218390800075864637472768) (-35);
   lit N 549210416881086355164851972523370137 (-36);
   lit N (-473366369162599860878254400521224717) (-37);
   lit N 123136575793833628711851523557950417 (-38)
].

(* src/c/Li2.c:174-287 *)
Definition c_li2_l (x : car N) : car N :=
  let PI := lit N 314159265358979323846264338327950288 (-35) in
  let y := lit N 0 0 in
  let r := lit N 0 0 in
  let s := lit N 1 0 in
  let k1 (y : car N) (r : car N) (s : car N) :=
    let z := y - (lit N 25 (-2)) in
    let p := hornerl z c_li2_l_P in
    let q := hornerl z c_li2_l_Q in
    r + s * y * p / q in
  if ltb N x (lit N (-1) 0) then
    let l := nlog N ((lit N 1 0) - x) in
    let y := (lit N 1 0) / ((lit N 1 0) - x) in
    let r := (opp N PI) * PI / (lit N 6 0) + l * ((lit N 5 (-1)) * l - (nlog N (opp N x))) in
    let s := lit N 1 0 in
    k1 y r s
  else if eqb N x (lit N (-1) 0) then
    (opp N PI) * PI / (lit N 12 0)
  else if ltb N x (lit N 0 0) then
    let l := nlog1p N (opp N x) in
    let y := x / (x - (lit N 1 0)) in
    let r := (lit N (-5) (-1)) * l * l in
    let s := lit N (-1) 0 in
    k1 y r s
  else if eqb N x (lit N 0 0) then
    x
  else if ltb N x (lit N 5 (-1)) then
    let y := x in
    let r := lit N 0 0 in
    let s := lit N 1 0 in
    k1 y r s
  else if ltb N x (lit N 1 0) then
    let y := (lit N 1 0) - x in
    let r := PI * PI / (lit N 6 0) - (nlog N x) * (nlog1p N (opp N x)) in
    let s := lit N (-1) 0 in
    k1 y r s
  else if eqb N x (lit N 1 0) then
    PI * PI / (lit N 6 0)
  else
    let '(y, r, s) :=
      if ltb N x (lit N 2 0) then
        let l := nlog N x in
        let y := (lit N 1 0) - (lit N 1 0) / x in
        let r := PI * PI / (lit N 6 0) - l * ((nlog N y) + (lit N 5 (-1)) * l) in
        let s := lit N 1 0 in
        (y, r, s)
      else
        let l := nlog N x in
        let y := (lit N 1 0) / x in
        let r := PI * PI / (lit N 3 0) - (lit N 5 (-1)) * l * l in
        let s := lit N (-1) 0 in
        (y, r, s) in
    k1 y r s.

(* src/c/Li2.c:202  array P[17] *)
Definition c_li2_q_P : list N := [
   lit N 10706105563309304276767353139512463033 (-37);
   lit N (-10976999936495889694316759019749736514) (-36);
   lit N 50926847456521671435598196295391041399 (-36);
   lit N (-14137651316583179225403308056234710093) (-35);
   lit N 26167438966024905838946321639772104746 (-35);
   lit N (-34058684964478756354428571563597134889) (-35);
   lit N 32038320769322335817541819891481680235 (-35);
   lit N (-22042602382067574460998180123431383994) (-35);
   lit N 11098617775200190748144566197068215051 (-35);
   lit N (-40511655788875306581280201485439376229) (-36);
   lit N 10505482055068989911823839054507173824 (-36);
   lit N (-18711701614474515075977773430379529915) (-37);
   lit N 21700009060344649725726270289240541652 (-38);
   lit N (-15030137964245010798524220531488795883) (-39);
   lit N 53441650657913964794668981233490297624 (-41);
   lit N (-70813883289232115572593407126124042503) (-43);
   lit N 9903774998345984320775601732982548652 (-45)
].

(* src/c/Li2.c:221  array Q[17] *)
Definition c_li2_q_Q : list N := [
   lit N 1 0;
   lit N (-10552362671556327276432317611336360654) (-36);
   lit N 50559576537049301822461383847757604795 (-36);
   lit N (-14554341156550484644439941130107249144) (-35);
   lit N 28070530313005385434963768448877956414 (-35);
   lit N (-38295927403204227055447294669165437162) (-35);
   lit N 38034123327297619837621395664129395552 (-35);
   lit N (-27878320883603471098333035075019703189) (-35);
   lit N 15127204204944666467295435798726892255 (-35);
   lit N (-60401294167088266781532200159750431265) (-36);
   lit N 17480717870136655299932069333598290551 (-36);
   lit N (-35731199220918363429317367913920234597) (-37);
   lit N 49537900060585746351429453828993042241 (-38);
   lit N (-43750415383481013167382471956794084257) (-39);
   lit N 2223456841314107815863701709810948365 (-39);
   lit N (-54149527323164210917629185927908003034) (-42);
   lit N 41629116823949062782848730828350635143 (-44)
].

(* src/c/Li2.c:174-287 *)
Definition c_li2_q (x : car N) : car N :=
  let PI := lit N 314159265358979323846264338327950288 (-35) in
  let y := lit N 0 0 in
  let r := lit N 0 0 in
  let s := lit N 1 0 in
  let k1 (y : car N) (r : car N) (s : car N) :=
    let z := y - (lit N 25 (-2)) in
    let p := hornerl z c_li2_q_P in
    let q := hornerl z c_li2_q_Q in
    r + s * y * p / q in
  if ltb N x (lit N (-1) 0) then
    let l := nlog N ((lit N 1 0) - x) in
    let y := (lit N 1 0) / ((lit N 1 0) - x) in
    let r := (opp N PI) * PI / (lit N 6 0) + l * ((lit N 5 (-1)) * l - (nlog N (opp N x))) in
    let s := lit N 1 0 in
    k1 y r s
  else if eqb N x (lit N (-1) 0) then
    (opp N PI) * PI / (lit N 12 0)
  else if ltb N x (lit N 0 0) then
    let l := nlog1p N (opp N x) in
    let y := x / (x - (lit N 1 0)) in
    let r := (lit N (-5) (-1)) * l * l in
    let s := lit N (-1) 0 in
    k1 y r s
  else if eqb N x (lit N 0 0) then
    x
  else if ltb N x (lit N 5 (-1)) then
    let y := x in
    let r := lit N 0 0 in
    let s := lit N 1 0 in
    k1 y r s
  else if ltb N x (lit N 1 0) then
    let y := (lit N 1 0) - x in
    let r := PI * PI / (lit N 6 0) - (nlog N x) * (nlog1p N (opp N x)) in
    let s := lit N (-1) 0 in
    k1 y r s
  else if eqb N x (lit N 1 0) then
    PI * PI / (lit N 6 0)
  else
    let '(y, r, s) :=
      if ltb N x (lit N 2 0) then
        let l := nlog N x in
        let y := (lit N 1 0) - (lit N 1 0) / x in
        let r := PI * PI / (lit N 6 0) - l * ((nlog N y) + (lit N 5 (-1)) * l) in
        let s := lit N 1 0 in
        (y, r, s)
      else
        let l := nlog N x in
        let y := (lit N 1 0) / x in
        let r := PI * PI / (lit N 3 0) - (lit N 5 (-1)) * l * l in
        let s := lit N (-1) 0 in
        (y, r, s) in
    k1 y r s.

(* src/c/Li3.c:15  array cp[6] *)
Definition c_li3_neg_cp : list N := [
   lit N 9999999999999999795 (-19);
   lit N (-20281801754117129576) (-19);
   lit N 1436402988756171854 (-18);
   lit N (-42240680435713030268) (-20);
   lit N 47296746450884096877 (-21);
   lit N (-13453536579918419568) (-22)
].

(* src/c/Li3.c:20  array cq[7] *)
Definition c_li3_neg_cq : list N := [
   lit N 1 0;
   lit N (-21531801754117049035) (-19);
   lit N 16685134736461140517 (-19);
   lit N (-5668485746458454431) (-19);
   lit N 81999463370623961084 (-21);
   lit N (-40756048502924149389) (-22);
   lit N 34316398489103212699 (-24)
].

(* src/c/Li3.c:13-35 *)
Definition c_li3_neg (x : car N) : car N :=
  let x2 := x * x in
  let x4 := x2 * x2 in
  let p := (aref N c_li3_neg_cp 0) + x * (aref N c_li3_neg_cp 1) + x2 * ((aref N c_li3_neg_cp 2) + x * (aref N c_li3_neg_cp 3)) + x4 * ((aref N c_li3_neg_cp 4) + x * (aref N c_li3_neg_cp 5)) in
  let q := (aref N c_li3_neg_cq 0) + x * (aref N c_li3_neg_cq 1) + x2 * ((aref N c_li3_neg_cq 2) + x * (aref N c_li3_neg_cq 3)) + x4 * ((aref N c_li3_neg_cq 4) + x * (aref N c_li3_neg_cq 5) + x2 * (aref N c_li3_neg_cq 6)) in
  x * p / q.

(* src/c/Li3.c:40  array cp[6] *)
Definition c_li3_pos_cp : list N := [
   lit N 9999999999999999893 (-19);
   lit N (-25224717303769789628) (-19);
   lit N 23204919140887894133 (-19);
   lit N (-93980973288965037869) (-20);
   lit N 15728950200990509052 (-20);
   lit N (-75485193983677071129) (-22)
].

(* src/c/Li3.c:45  array cq[7] *)
Definition c_li3_pos_cq : list N := [
   lit N 1 0;
   lit N (-26474717303769836244) (-19);
   lit N 26143888433492184741 (-19);
   lit N (-11841788297857667038) (-19);
   lit N 2418493852479365112 (-19);
   lit N (-18220900115898156346) (-21);
   lit N 24927971540017376759 (-23)
].

(* src/c/Li3.c:38-60 *)
Definition c_li3_pos (x : car N) : car N :=
  let x2 := x * x in
  let x4 := x2 * x2 in
  let p := (aref N c_li3_pos_cp 0) + x * (aref N c_li3_pos_cp 1) + x2 * ((aref N c_li3_pos_cp 2) + x * (aref N c_li3_pos_cp 3)) + x4 * ((aref N c_li3_pos_cp 4) + x * (aref N c_li3_pos_cp 5)) in
  let q := (aref N c_li3_pos_cq 0) + x * (aref N c_li3_pos_cq 1) + x2 * ((aref N c_li3_pos_cq 2) + x * (aref N c_li3_pos_cq 3)) + x4 * ((aref N c_li3_pos_cq 4) + x * (aref N c_li3_pos_cq 5) + x2 * (aref N c_li3_pos_cq 6)) in
  x * p / q.

(* src/c/Li3.c:68-101 *)
Definition c_li3_d (x : car N) : car N :=
  let zeta2 := lit N 16449340668482264 (-16) in
  let zeta3 := lit N 12020569031595943 (-16) in
  if ltb N x (lit N (-1) 0) then
    let l := nlog N (opp N x) in
    (c_li3_neg ((lit N 1 0) / x)) - l * (zeta2 + (lit N 1 0) / (lit N 6 0) * l * l)
  else if eqb N x (lit N (-1) 0) then
    (lit N (-75) (-2)) * zeta3
  else if ltb N x (lit N 0 0) then
    c_li3_neg x
  else if eqb N x (lit N 0 0) then
    x
  else if ltb N x (lit N 5 (-1)) then
    c_li3_pos x
  else if eqb N x (lit N 5 (-1)) then
    lit N 5372131936080402 (-16)
  else if ltb N x (lit N 1 0) then
    let l := nlog N x in
    (opp N (c_li3_neg ((lit N 1 0) - (lit N 1 0) / x))) - (c_li3_pos ((lit N 1 0) - x)) + zeta3 + l * (zeta2 + l * ((lit N (-5) (-1)) * (nlog1p N (opp N x)) + (lit N 1 0) / (lit N 6 0) * l))
  else if eqb N x (lit N 1 0) then
    zeta3
  else if ltb N x (lit N 2 0) then
    let l := nlog N x in
    (opp N (c_li3_neg ((lit N 1 0) - x))) - (c_li3_pos ((lit N 1 0) - (lit N 1 0) / x)) + zeta3 + l * (zeta2 + l * ((lit N (-5) (-1)) * (nlog N (x - (lit N 1 0))) + (lit N 1 0) / (lit N 6 0) * l))
  else
    let l := nlog N x in
    (c_li3_pos ((lit N 1 0) / x)) + l * ((lit N 2 0) * zeta2 - (lit N 1 0) / (lit N 6 0) * l * l).

(* src/c/Li4.c:15  array cp[6] *)
Definition c_li4_neg_cp : list N := [
   lit N 9999999999999999952 (-19);
   lit N (-18532099956062184217) (-19);
   lit N 11937642574034898249 (-19);
   lit N (-31817912243893560382) (-20);
   lit N 32268284189261624841 (-21);
   lit N (-83773570305913850724) (-23)
].

(* src/c/Li4.c:20  array cq[7] *)
Definition c_li4_neg_cq : list N := [
   lit N 1 0;
   lit N (-19157099956062165688) (-19);
   lit N 13011504531166486419 (-19);
   lit N (-37975653506939627186) (-20);
   lit N 4582272399655878367 (-20);
   lit N (-18023912938765272341) (-22);
   lit N 10199621542882314929 (-24)
].

(* src/c/Li4.c:13-35 *)
Definition c_li4_neg (x : car N) : car N :=
  let x2 := x * x in
  let x4 := x2 * x2 in
  let p := (aref N c_li4_neg_cp 0) + x * (aref N c_li4_neg_cp 1) + x2 * ((aref N c_li4_neg_cp 2) + x * (aref N c_li4_neg_cp 3)) + x4 * ((aref N c_li4_neg_cp 4) + x * (aref N c_li4_neg_cp 5)) in
  let q := (aref N c_li4_neg_cq 0) + x * (aref N c_li4_neg_cq 1) + x2 * ((aref N c_li4_neg_cq 2) + x * (aref N c_li4_neg_cq 3)) + x4 * ((aref N c_li4_neg_cq 4) + x * (aref N c_li4_neg_cq 5) + x2 * (aref N c_li4_neg_cq 6)) in
  x * p / q.

(* src/c/Li4.c:40  array cp[6] *)
Definition c_li4_half_cp : list N := [
   lit N 10000000000000000414 (-19);
   lit N (-20588072418045364525) (-19);
   lit N 14713328756794826579 (-19);
   lit N (-42608608613069811474) (-20);
   lit N 4297508427885154315 (-20);
   lit N (-68314031819918920802) (-23)
].

(* src/c/Li4.c:45  array cq[6] *)
Definition c_li4_half_cq : list N := [
   lit N 1 0;
   lit N (-21213072418045207223) (-19);
   lit N 15915688992789175941 (-19);
   lit N (-50327641401677265813) (-20);
   lit N 61467217495127095177 (-21);
   lit N (-1906129428019328033) (-21)
].

(* src/c/Li4.c:38-59 *)
Definition c_li4_half (x : car N) : car N :=
  let x2 := x * x in
  let x4 := x2 * x2 in
  let p := (aref N c_li4_half_cp 0) + x * (aref N c_li4_half_cp 1) + x2 * ((aref N c_li4_half_cp 2) + x * (aref N c_li4_half_cp 3)) + x4 * ((aref N c_li4_half_cp 4) + x * (aref N c_li4_half_cp 5)) in
  let q := (aref N c_li4_half_cq 0) + x * (aref N c_li4_half_cq 1) + x2 * ((aref N c_li4_half_cq 2) + x * (aref N c_li4_half_cq 3)) + x4 * ((aref N c_li4_half_cq 4) + x * (aref N c_li4_half_cq 5)) in
  x * p / q.

(* src/c/Li4.c:64  array cp[7] *)
Definition c_li4_mid_cp : list N := [
   lit N 32009826406098890447 (-28);
   lit N 9999999463483757416 (-19);
   lit N (-29144851228299341318) (-19);
   lit N 31891031447462342009 (-19);
   lit N (-1600912515851111709) (-18);
   lit N 35397747039432351193 (-20);
   lit N (-25230024124741454735) (-21)
].

(* src/c/Li4.c:70  array cq[7] *)
Definition c_li4_mid_cq : list N := [
   lit N 1 0;
   lit N (-2976985524841148846) (-18);
   lit N 33628208295110572579 (-19);
   lit N (-17782471949702788393) (-19);
   lit N 43364007973198649921 (-20);
   lit N (-39535592340362510549) (-21);
   lit N 57373431535336755591 (-23)
].

(* src/c/Li4.c:62-85 *)
Definition c_li4_mid (x : car N) : car N :=
  let x2 := x * x in
  let x4 := x2 * x2 in
  let p := (aref N c_li4_mid_cp 0) + x * (aref N c_li4_mid_cp 1) + x2 * ((aref N c_li4_mid_cp 2) + x * (aref N c_li4_mid_cp 3)) + x4 * ((aref N c_li4_mid_cp 4) + x * (aref N c_li4_mid_cp 5) + x2 * (aref N c_li4_mid_cp 6)) in
  let q := (aref N c_li4_mid_cq 0) + x * (aref N c_li4_mid_cq 1) + x2 * ((aref N c_li4_mid_cq 2) + x * (aref N c_li4_mid_cq 3)) + x4 * ((aref N c_li4_mid_cq 4) + x * (aref N c_li4_mid_cq 5) + x2 * (aref N c_li4_mid_cq 6)) in
  p / q.

(* src/c/Li4.c:88-103 *)
Definition c_li4_one (x : car N) : car N :=
  let zeta2 := lit N 16449340668482264 (-16) in
  let zeta3 := lit N 12020569031595943 (-16) in
  let zeta4 := lit N 10823232337111382 (-16) in
  let l := nlog N x in
  let l2 := l * l in
  zeta4 + l * (zeta3 + l * ((lit N 5 (-1)) * zeta2 + l * ((lit N 11 0) / (lit N 36 0) - (lit N 1 0) / (lit N 6 0) * (nlog N (opp N l)) + l * ((lit N (-1) 0) / (lit N 48 0) + l * ((lit N (-1) 0) / (lit N 1440 0) + l2 * ((lit N 1 0) / (lit N 604800 0) - (lit N 1 0) / (lit N 91445760 0) * l2)))))).

(* src/c/Li4.c:111-153 *)
Definition c_li4_d (x : car N) : car N :=
  let zeta2 := lit N 16449340668482264 (-16) in
  let zeta4 := lit N 10823232337111382 (-16) in
  let app := lit N 0 0 in
  let rest := lit N 0 0 in
  let sgn := lit N 1 0 in
  let k1 (x : car N) (rest : car N) (sgn : car N) :=
    let app :=
      if ltb N x (lit N 0 0) then
        let app := c_li4_neg x in
        app
      else
        let app :=
          if ltb N x (lit N 5 (-1)) then
            let app := c_li4_half x in
            app
          else
            let app :=
              if ltb N x (lit N 8 (-1)) then
                let app := c_li4_mid x in
                app
              else
                let app := c_li4_one x in
                app in
            app in
        app in
    rest + sgn * app in
  if ltb N x (lit N (-1) 0) then
    let l := nlog N (opp N x) in
    let l2 := l * l in
    let x := (lit N 1 0) / x in
    let rest := (lit N (-7) 0) / (lit N 4 0) * zeta4 + l2 * ((lit N (-5) (-1)) * zeta2 - (lit N 1 0) / (lit N 24 0) * l2) in
    let sgn := lit N (-1) 0 in
    k1 x rest sgn
  else if eqb N x (lit N (-1) 0) then
    (lit N (-7) 0) / (lit N 8 0) * zeta4
  else if eqb N x (lit N 0 0) then
    x
  else if ltb N x (lit N 1 0) then
    let rest := lit N 0 0 in
    let sgn := lit N 1 0 in
    k1 x rest sgn
  else if eqb N x (lit N 1 0) then
    zeta4
  else
    let l := nlog N x in
    let l2 := l * l in
    let x := (lit N 1 0) / x in
    let rest := (lit N 2 0) * zeta4 + l2 * (zeta2 - (lit N 1 0) / (lit N 24 0) * l2) in
    let sgn := lit N (-1) 0 in
    k1 x rest sgn.

(* src/c/log.c:11-24 *)
Definition c_clog1p (z : cpx N) : cpx N :=
  let u := cadd_rc N (lit N 1 0) z in
  let rz := fst u in
  let iz := snd u in
  if (eqb N rz (lit N 1 0) && eqb N iz (lit N 0 0)) then
    z
  else if leb N rz (lit N 0 0) then
    clog N u
  else
    cmul N (clog N u) (cdiv N z (csub_cr N u (lit N 1 0))).

(* src/c/log.c:27-40 *)
Definition c_clog1pl (z : cpx N) : cpx N :=
  let u := cadd_rc N (lit N 1 0) z in
  let rz := fst u in
  let iz := snd u in
  if (eqb N rz (lit N 1 0) && eqb N iz (lit N 0 0)) then
    z
  else if leb N rz (lit N 0 0) then
    clog N u
  else
    cmul N (clog N u) (cdiv N z (csub_cr N u (lit N 1 0))).

(* src/c/log.c:50-62 *)
Definition c_pos_clog (z : cpx N) : cpx N :=
  let rz := fst z in
  let iz := snd z in
  if (eqb N iz (lit N 0 0) && ltb N (lit N 0 0) rz) then
    (nlog N rz, lit N 0 0)
  else if eqb N iz (lit N 0 0) then
    (nlog N (opp N rz), lit N 31415926535897932 (-16))
  else
    clog N z.

(* src/c/log.c:72-84 *)
Definition c_pos_clogl (z : cpx N) : cpx N :=
  let rz := fst z in
  let iz := snd z in
  if (eqb N iz (lit N 0 0) && ltb N (lit N 0 0) rz) then
    (nlog N rz, lit N 0 0)
  else if eqb N iz (lit N 0 0) then
    (nlog N (opp N rz), lit N 314159265358979323846264338327950288 (-35))
  else
    clog N z.

(* src/c/Li2.c:303  array bf[4] *)
Definition c_cli2_f_bf : list N := [
   (lit N (-1) 0) / (lit N 4 0);
   (lit N 1 0) / (lit N 36 0);
   (lit N (-1) 0) / (lit N 3600 0);
   (lit N 1 0) / (lit N 211680 0)
].

(* src/c/Li2.c:298-361 *)
Definition c_cli2_f (z : cpx N) : cpx N :=
  let PI := lit N 314159265 (-8) in
  let rz := fst z in
  let iz := snd z in
  if eqb N iz (lit N 0 0) then
    if leb N rz (lit N 1 0) then
      (c_li2_f rz, iz)
    else
      (c_li2_f rz, (opp N PI) * (nlog N rz))
  else
    let nz := rz * rz + iz * iz in
    if ltb N nz (eps N) then
      cmul N z (cadd_rc N (lit N 1 0) (cmul_rc N (lit N 25 (-2)) z))
    else
      let u := (lit N 0 0, lit N 0 0) in
      let rest := (lit N 0 0, lit N 0 0) in
      let sgn := lit N 1 0 in
      let '(u, rest, sgn) :=
        if leb N rz (lit N 5 (-1)) then
          let '(u, rest, sgn) :=
            if ltb N (lit N 1 0) nz then
              let lz := clog N (copp N z) in
              let u := copp N (clog N (csub_rc N (lit N 1 0) (cdiv_rc N (lit N 1 0) z))) in
              let rest := csub_cr N (cmul N (cmul_rc N (lit N (-5) (-1)) lz) lz) (PI * PI / (lit N 6 0)) in
              let sgn := lit N (-1) 0 in
              (u, rest, sgn)
            else
              let u := copp N (clog N (csub_rc N (lit N 1 0) z)) in
              let rest := (lit N 0 0, lit N 0 0) in
              let sgn := lit N 1 0 in
              (u, rest, sgn) in
          (u, rest, sgn)
        else
          let '(u, rest, sgn) :=
            if leb N nz ((lit N 2 0) * rz) then
              let u := copp N (clog N z) in
              let rest := cadd_cr N (cmul N u (clog N (csub_rc N (lit N 1 0) z))) (PI * PI / (lit N 6 0)) in
              let sgn := lit N (-1) 0 in
              (u, rest, sgn)
            else
              let lz := clog N (copp N z) in
              let u := copp N (clog N (csub_rc N (lit N 1 0) (cdiv_rc N (lit N 1 0) z))) in
              let rest := csub_cr N (cmul N (cmul_rc N (lit N (-5) (-1)) lz) lz) (PI * PI / (lit N 6 0)) in
              let sgn := lit N (-1) 0 in
              (u, rest, sgn) in
          (u, rest, sgn) in
      let u2 := cmul N u u in
      let sum := cadd N u (cmul N u2 (cadd_rc N (aref N c_cli2_f_bf 0) (cmul N u (cadd_rc N (aref N c_cli2_f_bf 1) (cmul N u2 (cadd_rc N (aref N c_cli2_f_bf 2) (cmul_cr N u2 (aref N c_cli2_f_bf 3)))))))) in
      cadd N (cmul_rc N sgn sum) rest.

(* src/c/Li2.c:378  array bf[10] *)
Definition c_cli2_d_bf : list N := [
   (lit N (-1) 0) / (lit N 4 0);
   (lit N 1 0) / (lit N 36 0);
   (lit N (-1) 0) / (lit N 3600 0);
   (lit N 1 0) / (lit N 211680 0);
   (lit N (-1) 0) / (lit N 10886400 0);
   (lit N 1 0) / (lit N 526901760 0);
   lit N (-40647616451442255) (-27);
   lit N 89216910204564526 (-29);
   lit N (-19939295860721076) (-30);
   lit N 45189800296199182 (-32)
].

(* src/c/Li2.c:372-451 *)
Definition c_cli2_d (z : cpx N) : cpx N :=
  let PI := lit N 31415926535897932 (-16) in
  let rz := fst z in
  let iz := snd z in
  if eqb N iz (lit N 0 0) then
    if leb N rz (lit N 1 0) then
      (c_li2_d rz, iz)
    else
      (c_li2_d rz, (opp N PI) * (nlog N rz))
  else
    let nz := rz * rz + iz * iz in
    if ltb N nz (eps N) then
      cmul N z (cadd_rc N (lit N 1 0) (cmul_rc N (lit N 25 (-2)) z))
    else
      let u := (lit N 0 0, lit N 0 0) in
      let rest := (lit N 0 0, lit N 0 0) in
      let sgn := lit N 1 0 in
      let '(u, rest, sgn) :=
        if leb N rz (lit N 5 (-1)) then
          let '(u, rest, sgn) :=
            if ltb N (lit N 1 0) nz then
              let lz := clog N (copp N z) in
              let u := copp N (c_clog1p (cdiv_rc N (lit N (-1) 0) z)) in
              let rest := csub_cr N (cmul N (cmul_rc N (lit N (-5) (-1)) lz) lz) (PI * PI / (lit N 6 0)) in
              let sgn := lit N (-1) 0 in
              (u, rest, sgn)
            else
              let u := copp N (c_clog1p (copp N z)) in
              let rest := (lit N 0 0, lit N 0 0) in
              let sgn := lit N 1 0 in
              (u, rest, sgn) in
          (u, rest, sgn)
        else
          let '(u, rest, sgn) :=
            if leb N nz ((lit N 2 0) * rz) then
              let u := copp N (clog N z) in
              let rest := cadd_cr N (cmul N u (c_clog1p (copp N z))) (PI * PI / (lit N 6 0)) in
              let sgn := lit N (-1) 0 in
              (u, rest, sgn)
            else
              let lz := clog N (copp N z) in
              let u := copp N (c_clog1p (cdiv_rc N (lit N (-1) 0) z)) in
              let rest := csub_cr N (cmul N (cmul_rc N (lit N (-5) (-1)) lz) lz) (PI * PI / (lit N 6 0)) in
              let sgn := lit N (-1) 0 in
              (u, rest, sgn) in
          (u, rest, sgn) in
      let u2 := cmul N u u in
      let u4 := cmul N u2 u2 in
      let sum := cadd N u (cmul N u2 (cadd_rc N (aref N c_cli2_d_bf 0) (cmul N u (cadd_rc N (aref N c_cli2_d_bf 1) (cmul N u2 (cadd N (cadd N (cadd_rc N (aref N c_cli2_d_bf 2) (cmul_cr N u2 (aref N c_cli2_d_bf 3))) (cmul N u4 (cadd_rc N (aref N c_cli2_d_bf 4) (cmul_cr N u2 (aref N c_cli2_d_bf 5))))) (cmul N (cmul N u4 u4) (cadd N (cadd_rc N (aref N c_cli2_d_bf 6) (cmul_cr N u2 (aref N c_cli2_d_bf 7))) (cmul N u4 (cadd_rc N (aref N c_cli2_d_bf 8) (cmul_cr N u2 (aref N c_cli2_d_bf 9)))))))))))) in
      cadd N (cmul_rc N sgn sum) rest.

(* src/c/Li2.c:468  array bf[11] *)
Definition c_cli2_l_bf : list N := [
   (lit N (-1) 0) / (lit N 4 0);
   (lit N 1 0) / (lit N 36 0);
   (lit N (-1) 0) / (lit N 3600 0);
   (lit N 1 0) / (lit N 211680 0);
   (lit N (-1) 0) / (lit N 10886400 0);
   (lit N 1 0) / (lit N 526901760 0);
   lit N (-406476164514422552680590938629196667) (-46);
   lit N 892169102045645255521798731675274885 (-48);
   lit N (-199392958607210756872364434779378971) (-49);
   lit N 451898002961991819165047655285559323 (-51);
   lit N (-103565176121812470144834115422186567) (-52)
].

(* src/c/Li2.c:462-554 *)
Definition c_cli2_l (z : cpx N) : cpx N :=
  let PI := lit N 314159265358979323846264338327950288 (-35) in
  let rz := fst z in
  let iz := snd z in
  if eqb N iz (lit N 0 0) then
    if leb N rz (lit N 1 0) then
      (c_li2_l rz, iz)
    else
      (c_li2_l rz, (opp N PI) * (nlog N rz))
  else
    let nz := rz * rz + iz * iz in
    if ltb N nz (eps N) then
      cmul N z (cadd_rc N (lit N 1 0) (cmul_rc N (lit N 25 (-2)) z))
    else
      let u := (lit N 0 0, lit N 0 0) in
      let rest := (lit N 0 0, lit N 0 0) in
      let sgn := lit N 1 0 in
      let '(u, rest, sgn) :=
        if leb N rz (lit N 5 (-1)) then
          let '(u, rest, sgn) :=
            if ltb N (lit N 1 0) nz then
              let lz := clog N (copp N z) in
              let u := copp N (c_clog1pl (cdiv_rc N (lit N (-1) 0) z)) in
              let rest := csub_cr N (cmul N (cmul_rc N (lit N (-5) (-1)) lz) lz) (PI * PI / (lit N 6 0)) in
              let sgn := lit N (-1) 0 in
              (u, rest, sgn)
            else
              let u := copp N (c_clog1pl (copp N z)) in
              let rest := (lit N 0 0, lit N 0 0) in
              let sgn := lit N 1 0 in
              (u, rest, sgn) in
          (u, rest, sgn)
        else
          let '(u, rest, sgn) :=
            if leb N nz ((lit N 2 0) * rz) then
              let u := copp N (clog N z) in
              let rest := cadd_cr N (cmul N u (c_clog1pl (copp N z))) (PI * PI / (lit N 6 0)) in
              let sgn := lit N (-1) 0 in
              (u, rest, sgn)
            else
              let lz := clog N (copp N z) in
              let u := copp N (c_clog1pl (cdiv_rc N (lit N (-1) 0) z)) in
              let rest := csub_cr N (cmul N (cmul_rc N (lit N (-5) (-1)) lz) lz) (PI * PI / (lit N 6 0)) in
              let sgn := lit N (-1) 0 in
              (u, rest, sgn) in
          (u, rest, sgn) in
      let u2 := cmul N u u in
      let sum := (lit N 0 0, lit N 0 0) in
      let sum := sumdown 2%nat u2 c_cli2_l_bf in
      let sum := cadd N u (cmul N u2 (cadd_rc N (aref N c_cli2_l_bf 0) (cmul N u (cadd_rc N (aref N c_cli2_l_bf 1) sum)))) in
      cadd N (cmul_rc N sgn sum) rest.

(* src/c/Li2.c:468  array bf[23] *)
Definition c_cli2_q_bf : list N := [
   (lit N (-1) 0) / (lit N 4 0);
   (lit N 1 0) / (lit N 36 0);
   (lit N (-1) 0) / (lit N 3600 0);
   (lit N 1 0) / (lit N 211680 0);
   (lit N (-1) 0) / (lit N 10886400 0);
   (lit N 1 0) / (lit N 526901760 0);
   lit N (-406476164514422552680590938629196667) (-46);
   lit N 892169102045645255521798731675274885 (-48);
   lit N (-199392958607210756872364434779378971) (-49);
   lit N 451898002961991819165047655285559323 (-51);
   lit N (-103565176121812470144834115422186567) (-52);
   lit N 239521862102618674574028374300098038 (-54);
   lit N (-558178587432500933628307450562541991) (-56);
   lit N 13091507554183212858123073991865923 (-56);
   lit N (-308741980242674029324227976486646243) (-59);
   lit N 731597565270220342035790560925214859 (-61);
   lit N (-174084565723400074098905514775970255) (-62);
   lit N 415763564461389971961789962077522667 (-64);
   lit N (-996214848828462210319400670245583885) (-66);
   lit N 239403442489616530052116798789374956 (-67);
   lit N (-576834735536739008429179316187765424) (-69);
   lit N 139317947964700797782788660391154833 (-70);
   lit N (-337212196548508947046847363525493096) (-72)
].

(* src/c/Li2.c:462-554 *)
Definition c_cli2_q (z : cpx N) : cpx N :=
  let PI := lit N 314159265358979323846264338327950288 (-35) in
  let rz := fst z in
  let iz := snd z in
  if eqb N iz (lit N 0 0) then
    if leb N rz (lit N 1 0) then
      (c_li2_q rz, iz)
    else
      (c_li2_q rz, (opp N PI) * (nlog N rz))
  else
    let nz := rz * rz + iz * iz in
    if ltb N nz (eps N) then
      cmul N z (cadd_rc N (lit N 1 0) (cmul_rc N (lit N 25 (-2)) z))
    else
      let u := (lit N 0 0, lit N 0 0) in
      let rest := (lit N 0 0, lit N 0 0) in
      let sgn := lit N 1 0 in
      let '(u, rest, sgn) :=
        if leb N rz (lit N 5 (-1)) then
          let '(u, rest, sgn) :=
            if ltb N (lit N 1 0) nz then
              let lz := clog N (copp N z) in
              let u := copp N (c_clog1pl (cdiv_rc N (lit N (-1) 0) z)) in
              let rest := csub_cr N (cmul N (cmul_rc N (lit N (-5) (-1)) lz) lz) (PI * PI / (lit N 6 0)) in
              let sgn := lit N (-1) 0 in
              (u, rest, sgn)
            else
              let u := copp N (c_clog1pl (copp N z)) in
              let rest := (lit N 0 0, lit N 0 0) in
              let sgn := lit N 1 0 in
              (u, rest, sgn) in
          (u, rest, sgn)
        else
          let '(u, rest, sgn) :=
            if leb N nz ((lit N 2 0) * rz) then
              let u := copp N (clog N z) in
              let rest := cadd_cr N (cmul N u (c_clog1pl (copp N z))) (PI * PI / (lit N 6 0)) in
              let sgn := lit N (-1) 0 in
              (u, rest, sgn)
            else
              let lz := clog N (copp N z) in
              let u := copp N (c_clog1pl (cdiv_rc N (lit N (-1) 0) z)) in
              let rest := csub_cr N (cmul N (cmul_rc N (lit N (-5) (-1)) lz) lz) (PI * PI / (lit N 6 0)) in
              let sgn := lit N (-1) 0 in
              (u, rest, sgn) in
          (u, rest, sgn) in
      let u2 := cmul N u u in
      let sum := (lit N 0 0, lit N 0 0) in
      let sum := sumdown 2%nat u2 c_cli2_q_bf in
      let sum := cadd N u (cmul N u2 (cadd_rc N (aref N c_cli2_q_bf 0) (cmul N u (cadd_rc N (aref N c_cli2_q_bf 1) sum)))) in
      cadd N (cmul_rc N sgn sum) rest.

(* src/c/Li3.c:114  array bf[18] *)
Definition c_cli3_d_bf : list N := [
   lit N 1 0;
   (lit N (-3) 0) / (lit N 8 0);
   (lit N 17 0) / (lit N 216 0);
   (lit N (-5) 0) / (lit N 576 0);
   lit N 12962962962962963 (-20);
   lit N 81018518518518519 (-21);
   lit N (-34193571608537595) (-22);
   lit N (-1328656462585034) (-21);
   lit N 86608717561098513 (-24);
   lit N 252608759553204 (-22);
   lit N (-21446944683640648) (-25);
   lit N (-51401106220129789) (-26);
   lit N 52495821146008294 (-27);
   lit N 10887754406636318 (-27);
   lit N (-12779396094493695) (-28);
   lit N (-23698241773087452) (-29);
   lit N 31043578879654623 (-30);
   lit N 52617586299125061 (-31)
].

(* src/c/Li3.c:150  array cs[7] *)
Definition c_cli3_d_cs : list N := [
   lit N (-34722222222222222) (-19);
   lit N 11574074074074074 (-21);
   lit N (-98418997228521038) (-24);
   lit N 11482216343327454 (-25);
   lit N (-15815724990809166) (-27);
   lit N 24195009792525152 (-29);
   lit N (-39828977769894877) (-31)
].

(* src/c/Li3.c:109-188 *)
Definition c_cli3_d (z : cpx N) : cpx N :=
  let PI := lit N 31415926535897932 (-16) in
  let zeta2 := lit N 16449340668482264 (-16) in
  let zeta3 := lit N 12020569031595943 (-16) in
  let rz := fst z in
  let iz := snd z in
  if eqb N iz (lit N 0 0) then
    if leb N rz (lit N 1 0) then
      (c_li3_d rz, iz)
    else
      let l := nlog N rz in
      (c_li3_d rz, (lit N (-5) (-1)) * PI * l * l)
  else
    let nz := nhypot N rz iz in
    let pz := natan2 N iz rz in
    let lnz := nlog N nz in
    if ltb N (lnz * lnz + pz * pz) (lit N 1 0) then
      let u := (lnz, pz) in
      let u2 := cmul N u u in
      let u4 := cmul N u2 u2 in
      let u8 := cmul N u4 u4 in
      let c0 := cadd_rc N zeta3 (cmul N u (csub_rc N zeta2 (cdiv_cr N u2 (lit N 12 0)))) in
      let c1 := cmul_rc N (lit N 25 (-2)) (csub_rc N (lit N 3 0) (cmul_rc N (lit N 2 0) (c_pos_clog (copp N u)))) in
      cadd N (cadd N (cadd N (cadd N c0 (cmul N c1 u2)) (cmul N u4 (cadd_rc N (aref N c_cli3_d_cs 0) (cmul_cr N u2 (aref N c_cli3_d_cs 1))))) (cmul N u8 (cadd N (cadd_rc N (aref N c_cli3_d_cs 2) (cmul_cr N u2 (aref N c_cli3_d_cs 3))) (cmul N u4 (cadd_rc N (aref N c_cli3_d_cs 4) (cmul_cr N u2 (aref N c_cli3_d_cs 5))))))) (cmul_cr N (cmul N u8 u8) (aref N c_cli3_d_cs 6))
    else
      let u := (lit N 0 0, lit N 0 0) in
      let rest := (lit N 0 0, lit N 0 0) in
      let '(u, rest) :=
        if leb N nz (lit N 1 0) then
          let u := copp N (c_pos_clog (csub_rc N (lit N 1 0) z)) in
          (u, rest)
        else
          let arg := if ltb N (lit N 0 0) pz then (pz - PI) else (pz + PI) in
          let lmz := (lnz, arg) in
          let u := copp N (c_pos_clog (csub_rc N (lit N 1 0) (cdiv_rc N (lit N 1 0) z))) in
          let rest := cmul N (copp N lmz) (cadd_cr N (cdiv_cr N (cmul N lmz lmz) (lit N 6 0)) zeta2) in
          (u, rest) in
      let u2 := cmul N u u in
      let u4 := cmul N u2 u2 in
      let u8 := cmul N u4 u4 in
      cadd N (cadd N (cadd N (cadd N (cadd N rest (cmul_cr N u (aref N c_cli3_d_bf 0))) (cmul N u2 (cadd_rc N (aref N c_cli3_d_bf 1) (cmul_cr N u (aref N c_cli3_d_bf 2))))) (cmul N u4 (cadd N (cadd_rc N (aref N c_cli3_d_bf 3) (cmul_cr N u (aref N c_cli3_d_bf 4))) (cmul N u2 (cadd_rc N (aref N c_cli3_d_bf 5) (cmul_cr N u (aref N c_cli3_d_bf 6))))))) (cmul N u8 (cadd N (cadd N (cadd_rc N (aref N c_cli3_d_bf 7) (cmul_cr N u (aref N c_cli3_d_bf 8))) (cmul N u2 (cadd_rc N (aref N c_cli3_d_bf 9) (cmul_cr N u (aref N c_cli3_d_bf 10))))) (cmul N u4 (cadd N (cadd_rc N (aref N c_cli3_d_bf 11) (cmul_cr N u (aref N c_cli3_d_bf 12))) (cmul N u2 (cadd_rc N (aref N c_cli3_d_bf 13) (cmul_cr N u (aref N c_cli3_d_bf 14))))))))) (cmul N (cmul N u8 u8) (cadd N (cadd_rc N (aref N c_cli3_d_bf 15) (cmul_cr N u (aref N c_cli3_d_bf 16))) (cmul_cr N u2 (aref N c_cli3_d_bf 17)))).

(* src/c/Li3.c:202  array bf[22] *)
Definition c_cli3_l_bf : list N := [
   lit N 1 0;
   (lit N (-3) 0) / (lit N 8 0);
   (lit N 17 0) / (lit N 216 0);
   (lit N (-5) 0) / (lit N 576 0);
   (lit N 7 0) / (lit N 54000 0);
   (lit N 7 0) / (lit N 86400 0);
   lit N (-341935716085375949321527552820069827) (-41);
   lit N (-13286564625850340136054421768707483) (-40);
   lit N 866087175610985134794658604182413706 (-43);
   lit N 252608759553203997648442092886537331 (-43);
   lit N (-214469446836406476093388507573649032) (-44);
   lit N (-514011062201297891533581769272004962) (-45);
   lit N 524958211460082943639408880855807284 (-46);
   lit N 108877544066363183753729715704249107 (-46);
   lit N (-12779396094493695305581831754072212) (-46);
   lit N (-236982417730874520997977788101244891) (-48);
   lit N 310435788796546229428475327046556211 (-49);
   lit N 526175862991250608413183925112250061 (-50);
   lit N (-753847954994926536599250143226771028) (-51);
   lit N (-118623225777522852530825009512459322) (-51);
   lit N 183169799654913833820892731212815349 (-52);
   lit N 270681710318373501514907347126169436 (-53)
].

(* src/c/Li3.c:280  array cs[9] *)
Definition c_cli3_l_cs : list N := [
   lit N (-347222222222222222222222222222222222) (-38);
   lit N 115740740740740740740740740740740741 (-40);
   lit N (-984189972285210380448475686570924666) (-43);
   lit N 114822163433274544385655496766607878 (-44);
   lit N (-158157249908091658933409775160616911) (-46);
   lit N 241950097925251519452732701564998016 (-48);
   lit N (-398289777698948774786517290926462002) (-50);
   lit N 69233666183059290580682095409506587 (-51);
   lit N (-125527223044997727545846570912655367) (-53)
].

(* src/c/Li3.c:197-335 *)
Definition c_cli3_l (z : cpx N) : cpx N :=
  let PI := lit N 314159265358979323846264338327950288 (-35) in
  let zeta2 := lit N 164493406684822643647241516664602519 (-35) in
  let zeta3 := lit N 120205690315959428539973816151144999 (-35) in
  let rz := fst z in
  let iz := snd z in
  let k1 (_ : unit) :=
    let nz := nhypot N rz iz in
    let pz := natan2 N iz rz in
    let lnz := nlog N nz in
    if ltb N (lnz * lnz + pz * pz) (lit N 1 0) then
      let u := (lnz, pz) in
      let u2 := cmul N u u in
      let c0 := cadd_rc N zeta3 (cmul N u (csub_rc N zeta2 (cdiv_cr N u2 (lit N 12 0)))) in
      let c1 := cmul_rc N (lit N 25 (-2)) (csub_rc N (lit N 3 0) (cmul_rc N (lit N 2 0) (c_pos_clogl (copp N u)))) in
      let sum := (lit N 0 0, lit N 0 0) in
      let sum := sumdown 0%nat u2 c_cli3_l_cs in
      let sum := cadd N c0 (cmul N u2 (cadd N c1 sum)) in
      sum
    else
      let u := (lit N 0 0, lit N 0 0) in
      let rest := (lit N 0 0, lit N 0 0) in
      let '(u, rest) :=
        if leb N nz (lit N 1 0) then
          let u := copp N (c_pos_clogl (csub_rc N (lit N 1 0) z)) in
          (u, rest)
        else
          let arg := if ltb N (lit N 0 0) pz then (pz - PI) else (pz + PI) in
          let lmz := (lnz, arg) in
          let u := copp N (c_pos_clogl (csub_rc N (lit N 1 0) (cdiv_rc N (lit N 1 0) z))) in
          let rest := cmul N (copp N lmz) (cadd_cr N (cdiv_cr N (cmul N lmz lmz) (lit N 6 0)) zeta2) in
          (u, rest) in
      let sum := (lit N 0 0, lit N 0 0) in
      let sum := sumdown 0%nat u c_cli3_l_bf in
      cadd N rest sum in
  if eqb N iz (lit N 0 0) then
    if eqb N rz (lit N 0 0) then
      (rz, iz)
    else if eqb N rz (lit N 1 0) then
      (zeta3, iz)
    else if eqb N rz (lit N (-1) 0) then
      ((lit N (-75) (-2)) * zeta3, iz)
    else if eqb N rz (lit N 5 (-1)) then
      (lit N 537213193608040200940623225594965827 (-36), iz)
    else
      k1 tt
  else
    k1 tt.

(* src/c/Li3.c:202  array bf[45] *)
Definition c_cli3_q_bf : list N := [
   lit N 1 0;
   (lit N (-3) 0) / (lit N 8 0);
   (lit N 17 0) / (lit N 216 0);
   (lit N (-5) 0) / (lit N 576 0);
   (lit N 7 0) / (lit N 54000 0);
   (lit N 7 0) / (lit N 86400 0);
   lit N (-341935716085375949321527552820069827) (-41);
   lit N (-13286564625850340136054421768707483) (-40);
   lit N 866087175610985134794658604182413706 (-43);
   lit N 252608759553203997648442092886537331 (-43);
   lit N (-214469446836406476093388507573649032) (-44);
   lit N (-514011062201297891533581769272004962) (-45);
   lit N 524958211460082943639408880855807284 (-46);
   lit N 108877544066363183753729715704249107 (-46);
   lit N (-12779396094493695305581831754072212) (-46);
   lit N (-236982417730874520997977788101244891) (-48);
   lit N 310435788796546229428475327046556211 (-49);
   lit N 526175862991250608413183925112250061 (-50);
   lit N (-753847954994926536599250143226771028) (-51);
   lit N (-118623225777522852530825009512459322) (-51);
   lit N 183169799654913833820892731212815349 (-52);
   lit N 270681710318373501514907347126169436 (-53);
   lit N (-445543389782963882643263099217632212) (-54);
   lit N (-623754849225569465036532224739838641) (-55);
   lit N 108515215348745349131365609968642833 (-55);
   lit N 144911748660360819307349049665275324 (-56);
   lit N (-264663397544589903347408911861443741) (-57);
   lit N (-338976534885101047219258165860814078) (-58);
   lit N 646404773360331088903253098219534234 (-59);
   lit N 797583448960241242420922272590502795 (-60);
   lit N (-15809178790287483355921117629382677) (-59);
   lit N (-188614997296228681931102253988531956) (-61);
   lit N 387155366384184733039971271888313319 (-62);
   lit N 448011750023456073048653898320511684 (-63);
   lit N (-94930338719118361264175367602769915) (-63);
   lit N (-106828138090773812240182143033807908) (-64);
   lit N 233044789361030518600785199019281371 (-65);
   lit N 255607757265197540805635698286695865 (-66);
   lit N (-5727421606137259684472744580330571) (-65);
   lit N (-613471321379642358258549296897773326) (-68);
   lit N 1409080860406894484012686884894217 (-66);
   lit N 147642223976665341443182801167106626 (-69);
   lit N (-347010516489959160555004020312910903) (-70);
   lit N (-356210662409746357967357370318293608) (-71);
   lit N 855369656823692105754731289124468101 (-72)
].

(* src/c/Li3.c:280  array cs[20] *)
Definition c_cli3_q_cs : list N := [
   lit N (-347222222222222222222222222222222222) (-38);
   lit N 115740740740740740740740740740740741 (-40);
   lit N (-984189972285210380448475686570924666) (-43);
   lit N 114822163433274544385655496766607878 (-44);
   lit N (-158157249908091658933409775160616911) (-46);
   lit N 241950097925251519452732701564998016 (-48);
   lit N (-398289777698948774786517290926462002) (-50);
   lit N 69233666183059290580682095409506587 (-51);
   lit N (-125527223044997727545846570912655367) (-53);
   lit N 235375400276846523056441171414060379 (-55);
   lit N (-45363989034586870184475070890170083) (-56);
   lit N 894516967039264316712031170773304472 (-59);
   lit N (-179828400469549627172020247141015426) (-60);
   lit N 367549976479373844433604733912674099 (-62);
   lit N (-762080797156479522953948500963765478) (-64);
   lit N 160004196436948597517376392257325602 (-65);
   lit N (-339676114756037558792312060520851852) (-67);
   lit N 728227228675776469531725636144432664 (-69);
   lit N (-157502264795800348718497893940378261) (-70);
   lit N 343354009248058933588797212016527038 (-72)
].

(* src/c/Li3.c:197-335 *)
Definition c_cli3_q (z : cpx N) : cpx N :=
  let PI := lit N 314159265358979323846264338327950288 (-35) in
  let zeta2 := lit N 164493406684822643647241516664602519 (-35) in
  let zeta3 := lit N 120205690315959428539973816151144999 (-35) in
  let rz := fst z in
  let iz := snd z in
  let k1 (_ : unit) :=
    let nz := nhypot N rz iz in
    let pz := natan2 N iz rz in
    let lnz := nlog N nz in
    if ltb N (lnz * lnz + pz * pz) (lit N 1 0) then
      let u := (lnz, pz) in
      let u2 := cmul N u u in
      let c0 := cadd_rc N zeta3 (cmul N u (csub_rc N zeta2 (cdiv_cr N u2 (lit N 12 0)))) in
      let c1 := cmul_rc N (lit N 25 (-2)) (csub_rc N (lit N 3 0) (cmul_rc N (lit N 2 0) (c_pos_clogl (copp N u)))) in
      let sum := (lit N 0 0, lit N 0 0) in
      let sum := sumdown 0%nat u2 c_cli3_q_cs in
      let sum := cadd N c0 (cmul N u2 (cadd N c1 sum)) in
      sum
    else
      let u := (lit N 0 0, lit N 0 0) in
      let rest := (lit N 0 0, lit N 0 0) in
      let '(u, rest) :=
        if leb N nz (lit N 1 0) then
          let u := copp N (c_pos_clogl (csub_rc N (lit N 1 0) z)) in
          (u, rest)
        else
          let arg := if ltb N (lit N 0 0) pz then (pz - PI) else (pz + PI) in
          let lmz := (lnz, arg) in
          let u := copp N (c_pos_clogl (csub_rc N (lit N 1 0) (cdiv_rc N (lit N 1 0) z))) in
          let rest := cmul N (copp N lmz) (cadd_cr N (cdiv_cr N (cmul N lmz lmz) (lit N 6 0)) zeta2) in
          (u, rest) in
      let sum := (lit N 0 0, lit N 0 0) in
      let sum := sumdown 0%nat u c_cli3_q_bf in
      cadd N rest sum in
  if eqb N iz (lit N 0 0) then
    if eqb N rz (lit N 0 0) then
      (rz, iz)
    else if eqb N rz (lit N 1 0) then
      (zeta3, iz)
    else if eqb N rz (lit N (-1) 0) then
      ((lit N (-75) (-2)) * zeta3, iz)
    else if eqb N rz (lit N 5 (-1)) then
      (lit N 537213193608040200940623225594965827 (-36), iz)
    else
      k1 tt
  else
    k1 tt.

(* src/c/Li4.c:168  array bf[18] *)
Definition c_cli4_d_bf : list N := [
   lit N 1 0;
   (lit N (-7) 0) / (lit N 16 0);
   lit N 11651234567901235 (-17);
   lit N (-19820601851851852) (-18);
   lit N 19279320987654321 (-19);
   lit N (-31057098765432099) (-21);
   lit N (-15624009114857835) (-21);
   lit N 84851235467732066 (-23);
   lit N 22909616603189711 (-23);
   lit N (-21832614218526917) (-24);
   lit N (-38828248791720156) (-25);
   lit N 54462921032203321 (-26);
   lit N 69608052106827254 (-27);
   lit N (-13375737686445215) (-27);
   lit N (-12784852685266572) (-28);
   lit N 32605628580248922 (-29);
   lit N 23647571168618257 (-30);
   lit N (-79231351220311617) (-31)
].

(* src/c/Li4.c:206  array cs[7] *)
Definition c_cli4_d_cs : list N := [
   lit N (-69444444444444444) (-20);
   lit N 16534391534391534 (-22);
   lit N (-10935444136502338) (-24);
   lit N 10438378493934049 (-26);
   lit N (-12165942300622435) (-28);
   lit N 16130006528350101 (-30);
   lit N (-2342881045287934) (-31)
].

(* src/c/Li4.c:162-250 *)
Definition c_cli4_d (z : cpx N) : cpx N :=
  let PI := lit N 31415926535897932 (-16) in
  let PI2 := PI * PI in
  let PI4 := PI2 * PI2 in
  let zeta4 := lit N 10823232337111382 (-16) in
  let rz := fst z in
  let iz := snd z in
  if eqb N iz (lit N 0 0) then
    if leb N rz (lit N 1 0) then
      (c_li4_d rz, iz)
    else
      let l := nlog N rz in
      (c_li4_d rz, (lit N (-1) 0) / (lit N 6 0) * PI * l * l * l)
  else
    let nz := nhypot N rz iz in
    let pz := natan2 N iz rz in
    let lnz := nlog N nz in
    if ltb N (lnz * lnz + pz * pz) (lit N 1 0) then
      let u := (lnz, pz) in
      let u2 := cmul N u u in
      let u4 := cmul N u2 u2 in
      let u8 := cmul N u4 u4 in
      let c1 := lit N 12020569031595943 (-16) in
      let c2 := lit N 82246703342411322 (-17) in
      let c3 := cdiv_cr N (csub_rc N ((lit N 11 0) / (lit N 6 0)) (c_pos_clog (copp N u))) (lit N 6 0) in
      let c4 := (lit N (-1) 0) / (lit N 48 0) in
      cadd N (cadd_rc N zeta4 (cmul N u2 (cadd_rc N c2 (cmul_cr N u2 c4)))) (cmul N u (cadd N (cadd N (cadd N (cadd_rc N c1 (cmul N c3 u2)) (cmul N u4 (cadd_rc N (aref N c_cli4_d_cs 0) (cmul_cr N u2 (aref N c_cli4_d_cs 1))))) (cmul N u8 (cadd N (cadd_rc N (aref N c_cli4_d_cs 2) (cmul_cr N u2 (aref N c_cli4_d_cs 3))) (cmul N u4 (cadd_rc N (aref N c_cli4_d_cs 4) (cmul_cr N u2 (aref N c_cli4_d_cs 5))))))) (cmul_cr N (cmul N u8 u8) (aref N c_cli4_d_cs 6))))
    else
      let u := (lit N 0 0, lit N 0 0) in
      let r := (lit N 0 0, lit N 0 0) in
      let sgn := lit N 1 0 in
      let '(u, r, sgn) :=
        if leb N nz (lit N 1 0) then
          let u := copp N (c_pos_clog (csub_rc N (lit N 1 0) z)) in
          (u, r, sgn)
        else
          let arg := if ltb N (lit N 0 0) pz then (pz - PI) else (pz + PI) in
          let lmz := (lnz, arg) in
          let lmz2 := cmul N lmz lmz in
          let u := copp N (c_pos_clog (csub_rc N (lit N 1 0) (cdiv_rc N (lit N 1 0) z))) in
          let r := cmul_rc N ((lit N 1 0) / (lit N 360 0)) (cadd_rc N ((lit N (-7) 0) * PI4) (cmul N lmz2 (csub_rc N ((lit N (-30) 0) * PI2) (cmul_rc N (lit N 15 0) lmz2)))) in
          let sgn := lit N (-1) 0 in
          (u, r, sgn) in
      let u2 := cmul N u u in
      let u4 := cmul N u2 u2 in
      let u8 := cmul N u4 u4 in
      cadd N r (cmul_rc N sgn (cadd N (cadd N (cadd N (cadd N (cmul_cr N u (aref N c_cli4_d_bf 0)) (cmul N u2 (cadd_rc N (aref N c_cli4_d_bf 1) (cmul_cr N u (aref N c_cli4_d_bf 2))))) (cmul N u4 (cadd N (cadd_rc N (aref N c_cli4_d_bf 3) (cmul_cr N u (aref N c_cli4_d_bf 4))) (cmul N u2 (cadd_rc N (aref N c_cli4_d_bf 5) (cmul_cr N u (aref N c_cli4_d_bf 6))))))) (cmul N u8 (cadd N (cadd N (cadd_rc N (aref N c_cli4_d_bf 7) (cmul_cr N u (aref N c_cli4_d_bf 8))) (cmul N u2 (cadd_rc N (aref N c_cli4_d_bf 9) (cmul_cr N u (aref N c_cli4_d_bf 10))))) (cmul N u4 (cadd N (cadd_rc N (aref N c_cli4_d_bf 11) (cmul_cr N u (aref N c_cli4_d_bf 12))) (cmul N u2 (cadd_rc N (aref N c_cli4_d_bf 13) (cmul_cr N u (aref N c_cli4_d_bf 14))))))))) (cmul N (cmul N u8 u8) (cadd N (cadd_rc N (aref N c_cli4_d_bf 15) (cmul_cr N u (aref N c_cli4_d_bf 16))) (cmul_cr N u2 (aref N c_cli4_d_bf 17)))))).

(* src/c/Li4.c:265  array bf[22] *)
Definition c_cli4_l_bf : list N := [
   lit N 1 0;
   (lit N (-7) 0) / (lit N 16 0);
   lit N 116512345679012345679012345679012346 (-36);
   lit N (-198206018518518518518518518518518519) (-37);
   lit N 19279320987654320987654320987654321 (-37);
   lit N (-310570987654320987654320987654320988) (-40);
   lit N (-156240091148578352983924736435264456) (-40);
   lit N 848512354677320663715221538350790051 (-42);
   lit N 229096166031897114453593835470042743 (-42);
   lit N (-218326142185269169396153523137650122) (-43);
   lit N (-388282487917201557228066203807765146) (-44);
   lit N 544629210322033211825798588082320063 (-45);
   lit N 69608052106827254078772334134120812 (-45);
   lit N (-133757376864452151995780722036345205) (-46);
   lit N (-1278485268526657160414624636157417) (-45);
   lit N 326056285802489224287884181782170918 (-48);
   lit N 236475711686182573623095048124390137 (-49);
   lit N (-792313512203116170242999007113724954) (-50);
   lit N (-434529157099841872504973716264753844) (-51);
   lit N 192362700625359201161268755267526042 (-51);
   lit N 781241433319595467072229389687370732 (-53);
   lit N (-467180384480365552031762824287222012) (-53)
].

(* src/c/Li4.c:342  array cs[8] *)
Definition c_cli4_l_cs : list N := [
   lit N (-694444444444444444444444444444444444) (-39);
   lit N 165343915343915343915343915343915344 (-41);
   lit N (-109354441365023375605386187396769407) (-43);
   lit N 104383784939340494896050451606007162 (-45);
   lit N (-121659423006224353025699827046628393) (-47);
   lit N 161300065283501012968488467709998678 (-49);
   lit N (-234288104528793396933245465250860001) (-51);
   lit N 364387716752943634635168923207929405 (-53)
].

(* src/c/Li4.c:259-397 *)
Definition c_cli4_l (z : cpx N) : cpx N :=
  let PI := lit N 314159265358979323846264338327950288 (-35) in
  let PI2 := PI * PI in
  let PI4 := PI2 * PI2 in
  let zeta4 := lit N 10823232337111381915160036965411679 (-34) in
  let rz := fst z in
  let iz := snd z in
  let k1 (_ : unit) :=
    let nz := nhypot N rz iz in
    let pz := natan2 N iz rz in
    let lnz := nlog N nz in
    if ltb N (lnz * lnz + pz * pz) (lit N 1 0) then
      let u := (lnz, pz) in
      let u2 := cmul N u u in
      let c1 := lit N 120205690315959428539973816151144999 (-35) in
      let c2 := lit N 822467033424113218236207583323012595 (-36) in
      let c3 := cdiv_cr N (csub_rc N ((lit N 11 0) / (lit N 6 0)) (c_pos_clogl (copp N u))) (lit N 6 0) in
      let c4 := (lit N (-1) 0) / (lit N 48 0) in
      let sum := (lit N 0 0, lit N 0 0) in
      let sum := sumdown 0%nat u2 c_cli4_l_cs in
      cadd N (cadd_rc N zeta4 (cmul N u2 (cadd_rc N c2 (cmul_cr N u2 c4)))) (cmul N u (cadd_rc N c1 (cmul N u2 (cadd N c3 sum))))
    else
      let u := (lit N 0 0, lit N 0 0) in
      let r := (lit N 0 0, lit N 0 0) in
      let sgn := lit N 1 0 in
      let '(u, r, sgn) :=
        if leb N nz (lit N 1 0) then
          let u := copp N (c_pos_clogl (csub_rc N (lit N 1 0) z)) in
          (u, r, sgn)
        else
          let arg := if ltb N (lit N 0 0) pz then (pz - PI) else (pz + PI) in
          let lmz := (lnz, arg) in
          let lmz2 := cmul N lmz lmz in
          let u := copp N (c_pos_clogl (csub_rc N (lit N 1 0) (cdiv_rc N (lit N 1 0) z))) in
          let r := cmul_rc N ((lit N 1 0) / (lit N 360 0)) (cadd_rc N ((lit N (-7) 0) * PI4) (cmul N lmz2 (csub_rc N ((lit N (-30) 0) * PI2) (cmul_rc N (lit N 15 0) lmz2)))) in
          let sgn := lit N (-1) 0 in
          (u, r, sgn) in
      let sum := (lit N 0 0, lit N 0 0) in
      let sum := sumdown 0%nat u c_cli4_l_bf in
      cadd N (cmul_rc N sgn sum) r in
  if eqb N iz (lit N 0 0) then
    if eqb N rz (lit N 0 0) then
      (rz, iz)
    else if eqb N rz (lit N 1 0) then
      (zeta4, iz)
    else if eqb N rz (lit N (-1) 0) then
      ((lit N (-7) 0) * PI4 / (lit N 720 0), iz)
    else
      k1 tt
  else
    k1 tt.

(* src/c/Li4.c:265  array bf[45] *)
Definition c_cli4_q_bf : list N := [
   lit N 1 0;
   (lit N (-7) 0) / (lit N 16 0);
   lit N 116512345679012345679012345679012346 (-36);
   lit N (-198206018518518518518518518518518519) (-37);
   lit N 19279320987654320987654320987654321 (-37);
   lit N (-310570987654320987654320987654320988) (-40);
   lit N (-156240091148578352983924736435264456) (-40);
   lit N 848512354677320663715221538350790051 (-42);
   lit N 229096166031897114453593835470042743 (-42);
   lit N (-218326142185269169396153523137650122) (-43);
   lit N (-388282487917201557228066203807765146) (-44);
   lit N 544629210322033211825798588082320063 (-45);
   lit N 69608052106827254078772334134120812 (-45);
   lit N (-133757376864452151995780722036345205) (-46);
   lit N (-1278485268526657160414624636157417) (-45);
   lit N 326056285802489224287884181782170918 (-48);
   lit N 236475711686182573623095048124390137 (-49);
   lit N (-792313512203116170242999007113724954) (-50);
   lit N (-434529157099841872504973716264753844) (-51);
   lit N 192362700625359201161268755267526042 (-51);
   lit N 781241433319595467072229389687370732 (-53);
   lit N (-467180384480365552031762824287222012) (-53);
   lit N (-134353443298128478562602226758937243) (-54);
   lit N 113568268513473432447646983759384846 (-54);
   lit N 211527562024325868475059834141917946 (-56);
   lit N (-27642026334746517388281729253731028) (-55);
   lit N (-270681766082400642561090595581950049) (-58);
   lit N 673720448286285721432671612656264303 (-58);
   lit N 132872654566838229758180090450125398 (-60);
   lit N (-16443773056367826467816763114888663) (-58);
   lit N 828360589993393411098296734003488096 (-62);
   lit N 401908484950693506997093150076214959 (-61);
   lit N (-457571384448487903823597343465369976) (-63);
   lit N (-983641090946151277583209749821167124) (-63);
   lit N 169003395560378510677295231219028521 (-64);
   lit N 241048055630598085046649041649017179 (-64);
   lit N (-542661270567141825013250340589290005) (-66);
   lit N (-591424295887417678643375999669283147) (-66);
   lit N 162321109010873707727111761439681785 (-67);
   lit N 145275954377402759461325873161579478 (-67);
   lit N (-465389937002573704417216829815072974) (-69);
   lit N (-357238626244413318154616242379067282) (-69);
   lit N 129761714880310295825962542732877943 (-70);
   lit N 879357407773938851103685229710271214 (-71);
   lit N (-354800202048240308911663975982519909) (-72)
].

(* src/c/Li4.c:342  array cs[19] *)
Definition c_cli4_q_cs : list N := [
   lit N (-694444444444444444444444444444444444) (-39);
   lit N 165343915343915343915343915343915344 (-41);
   lit N (-109354441365023375605386187396769407) (-43);
   lit N 104383784939340494896050451606007162 (-45);
   lit N (-121659423006224353025699827046628393) (-47);
   lit N 161300065283501012968488467709998678 (-49);
   lit N (-234288104528793396933245465250860001) (-51);
   lit N 364387716752943634635168923207929405 (-53);
   lit N (-597748681166655845456412242441216036) (-55);
   lit N 102337130555150662198452683223504513 (-56);
   lit N (-181455956138347480737900283560680332) (-58);
   lit N 331302580384912709893344878064186841 (-60);
   lit N (-620097932653619404041449128072466986) (-62);
   lit N 118564508541733498204388623842798096 (-63);
   lit N (-230933574895902885743620757867807721) (-65);
   lit N 457154846962710278621075406449501719 (-67);
   lit N (-918043553394696104844086650056356358) (-69);
   lit N 186724930429686274238904009267803247 (-70);
   lit N (-384151865355610606630482668147264051) (-72)
].

(* src/c/Li4.c:259-397 *)
Definition c_cli4_q (z : cpx N) : cpx N :=
  let PI := lit N 314159265358979323846264338327950288 (-35) in
  let PI2 := PI * PI in
  let PI4 := PI2 * PI2 in
  let zeta4 := lit N 10823232337111381915160036965411679 (-34) in
  let rz := fst z in
  let iz := snd z in
  let k1 (_ : unit) :=
    let nz := nhypot N rz iz in
    let pz := natan2 N iz rz in
    let lnz := nlog N nz in
    if ltb N (lnz * lnz + pz * pz) (lit N 1 0) then
      let u := (lnz, pz) in
      let u2 := cmul N u u in
      let c1 := lit N 120205690315959428539973816151144999 (-35) in
      let c2 := lit N 822467033424113218236207583323012595 (-36) in
      let c3 := cdiv_cr N (csub_rc N ((lit N 11 0) / (lit N 6 0)) (c_pos_clogl (copp N u))) (lit N 6 0) in
      let c4 := (lit N (-1) 0) / (lit N 48 0) in
      let sum := (lit N 0 0, lit N 0 0) in
      let sum := sumdown 0%nat u2 c_cli4_q_cs in
      cadd N (cadd_rc N zeta4 (cmul N u2 (cadd_rc N c2 (cmul_cr N u2 c4)))) (cmul N u (cadd_rc N c1 (cmul N u2 (cadd N c3 sum))))
    else
      let u := (lit N 0 0, lit N 0 0) in
      let r := (lit N 0 0, lit N 0 0) in
      let sgn := lit N 1 0 in
      let '(u, r, sgn) :=
        if leb N nz (lit N 1 0) then
          let u := copp N (c_pos_clogl (csub_rc N (lit N 1 0) z)) in
          (u, r, sgn)
        else
          let arg := if ltb N (lit N 0 0) pz then (pz - PI) else (pz + PI) in
          let lmz := (lnz, arg) in
          let lmz2 := cmul N lmz lmz in
          let u := copp N (c_pos_clogl (csub_rc N (lit N 1 0) (cdiv_rc N (lit N 1 0) z))) in
          let r := cmul_rc N ((lit N 1 0) / (lit N 360 0)) (cadd_rc N ((lit N (-7) 0) * PI4) (cmul N lmz2 (csub_rc N ((lit N (-30) 0) * PI2) (cmul_rc N (lit N 15 0) lmz2)))) in
          let sgn := lit N (-1) 0 in
          (u, r, sgn) in
      let sum := (lit N 0 0, lit N 0 0) in
      let sum := sumdown 0%nat u c_cli4_q_bf in
      cadd N (cmul_rc N sgn sum) r in
  if eqb N iz (lit N 0 0) then
    if eqb N rz (lit N 0 0) then
      (rz, iz)
    else if eqb N rz (lit N 1 0) then
      (zeta4, iz)
    else if eqb N rz (lit N (-1) 0) then
      ((lit N (-7) 0) * PI4 / (lit N 720 0), iz)
    else
      k1 tt
  else
    k1 tt.

(* src/c/Li5.c:25  array bf[19] *)
Definition c_cli5_d_bf : list N := [
   lit N 1 0;
   (lit N (-15) 0) / (lit N 32 0);
   lit N 13953189300411523 (-17);
   lit N (-2863377700617284) (-17);
   lit N 40317412551440329 (-19);
   lit N (-33985018004115226) (-20);
   lit N 45445184621617666 (-22);
   lit N 23916808048569012 (-22);
   lit N (-12762692600122747) (-23);
   lit N (-31628984306505932) (-24);
   lit N 32848118445335192 (-25);
   lit N 47613713995660579 (-26);
   lit N (-8084689817190983) (-26);
   lit N (-72387648587737207) (-28);
   lit N 19439760115173968 (-28);
   lit N 10256978405977236 (-29);
   lit N (-4618055100988483) (-29);
   lit N (-1153585719647058) (-30);
   lit N 10903545401333394 (-31)
].

(* src/c/Li5.c:67  array cs[6] *)
Definition c_cli5_d_cs : list N := [
   lit N (-11574074074074074) (-20);
   lit N 20667989417989418 (-23);
   lit N (-10935444136502338) (-25);
   lit N 86986487449450412 (-28);
   lit N (-86899587861588824) (-30);
   lit N 10081254080218813 (-31)
].

(* src/c/Li5.c:19-108 *)
Definition c_cli5_d (z : cpx N) : cpx N :=
  let PI := lit N 31415926535897932 (-16) in
  let PI2 := PI * PI in
  let PI4 := PI2 * PI2 in
  let zeta5 := lit N 10369277551433699 (-16) in
  let rz := fst z in
  let iz := snd z in
  let k1 (_ : unit) :=
    let nz := nhypot N rz iz in
    let pz := natan2 N iz rz in
    let lnz := nlog N nz in
    if ltb N (lnz * lnz + pz * pz) (lit N 1 0) then
      let u := (lnz, pz) in
      let u2 := cmul N u u in
      let c0 := zeta5 in
      let c1 := lit N 10823232337111382 (-16) in
      let c2 := lit N 60102845157979714 (-17) in
      let c3 := lit N 27415567780803774 (-17) in
      let c4 := cdiv_cr N (csub_rc N ((lit N 25 0) / (lit N 12 0)) (c_pos_clog (copp N u))) (lit N 24 0) in
      let c5 := (lit N (-1) 0) / (lit N 240 0) in
      cadd N (cadd_rc N c0 (cmul_cr N u c1)) (cmul N u2 (cadd N (cadd_rc N c2 (cmul_cr N u c3)) (cmul N u2 (cadd N (cadd N c4 (cmul_cr N u c5)) (cmul N u2 (cadd_rc N (aref N c_cli5_d_cs 0) (cmul N u2 (cadd_rc N (aref N c_cli5_d_cs 1) (cmul N u2 (cadd_rc N (aref N c_cli5_d_cs 2) (cmul N u2 (cadd_rc N (aref N c_cli5_d_cs 3) (cmul N u2 (cadd_rc N (aref N c_cli5_d_cs 4) (cmul_cr N u2 (aref N c_cli5_d_cs 5))))))))))))))))
    else
      let u := (lit N 0 0, lit N 0 0) in
      let rest := (lit N 0 0, lit N 0 0) in
      let '(u, rest) :=
        if leb N nz (lit N 1 0) then
          let u := copp N (c_pos_clog (csub_rc N (lit N 1 0) z)) in
          (u, rest)
        else
          let arg := if ltb N (lit N 0 0) pz then (pz - PI) else (pz + PI) in
          let lmz := (lnz, arg) in
          let lmz2 := cmul N lmz lmz in
          let u := copp N (c_pos_clog (csub_rc N (lit N 1 0) (cdiv_rc N (lit N 1 0) z))) in
          let rest := cmul N (cmul_rc N ((lit N (-1) 0) / (lit N 360 0)) lmz) (cadd_rc N ((lit N 7 0) * PI4) (cmul N lmz2 (cadd_rc N ((lit N 10 0) * PI2) (cmul_rc N (lit N 3 0) lmz2)))) in
          (u, rest) in
      let u2 := cmul N u u in
      let u4 := cmul N u2 u2 in
      let u8 := cmul N u4 u4 in
      cadd N (cadd N (cadd N (cadd N (cadd N rest (cmul_cr N u (aref N c_cli5_d_bf 0))) (cmul N u2 (cadd_rc N (aref N c_cli5_d_bf 1) (cmul_cr N u (aref N c_cli5_d_bf 2))))) (cmul N u4 (cadd N (cadd_rc N (aref N c_cli5_d_bf 3) (cmul_cr N u (aref N c_cli5_d_bf 4))) (cmul N u2 (cadd_rc N (aref N c_cli5_d_bf 5) (cmul_cr N u (aref N c_cli5_d_bf 6))))))) (cmul N u8 (cadd N (cadd N (cadd_rc N (aref N c_cli5_d_bf 7) (cmul_cr N u (aref N c_cli5_d_bf 8))) (cmul N u2 (cadd_rc N (aref N c_cli5_d_bf 9) (cmul_cr N u (aref N c_cli5_d_bf 10))))) (cmul N u4 (cadd N (cadd_rc N (aref N c_cli5_d_bf 11) (cmul_cr N u (aref N c_cli5_d_bf 12))) (cmul N u2 (cadd_rc N (aref N c_cli5_d_bf 13) (cmul_cr N u (aref N c_cli5_d_bf 14))))))))) (cmul N (cmul N u8 u8) (cadd N (cadd_rc N (aref N c_cli5_d_bf 15) (cmul_cr N u (aref N c_cli5_d_bf 16))) (cmul N u2 (cadd_rc N (aref N c_cli5_d_bf 17) (cmul_cr N u (aref N c_cli5_d_bf 18)))))) in
  if eqb N iz (lit N 0 0) then
    if eqb N rz (lit N 0 0) then
      (rz, iz)
    else if eqb N rz (lit N 1 0) then
      (zeta5, iz)
    else if eqb N rz (lit N (-1) 0) then
      ((lit N (-15) 0) * zeta5 / (lit N 16 0), iz)
    else
      k1 tt
  else
    k1 tt.

(* src/c/Li5.c:123  array bf[21] *)
Definition c_cli5_l_bf : list N := [
   lit N 1 0;
   (lit N (-15) 0) / (lit N 32 0);
   lit N 139531893004115226337448559670781893 (-36);
   lit N (-286337770061728395061728395061728395) (-37);
   lit N 403174125514403292181069958847736626 (-38);
   lit N (-33985018004115226337448559670781893) (-38);
   lit N 454451846216176664909446003743133026 (-41);
   lit N 239168080485690118829088702752453967 (-41);
   lit N (-127626926001227465885443518981747128) (-42);
   lit N (-316289843065059324402567872795470007) (-43);
   lit N 328481184453351916215185742384719818 (-44);
   lit N 476137139956605790483191328977324967 (-45);
   lit N (-80846898171909830256460260362331749) (-45);
   lit N (-72387648587737206946829215837589758) (-46);
   lit N 194397601151739684930556492093599766 (-47);
   lit N 102569784059772359718813559433198981 (-48);
   lit N (-461805510098848301805820862410656158) (-49);
   lit N (-115358571964705800368425114834190972) (-50);
   lit N 109035454013333939879770883809662643 (-50);
   lit N 231481363172925263940797103190091493 (-53);
   lit N (-256699170432652921943348919933966693) (-52)
].

(* src/c/Li5.c:202  array cs[7] *)
Definition c_cli5_l_cs : list N := [
   lit N (-115740740740740740740740740740740741) (-39);
   lit N 20667989417989417989417989417989418 (-41);
   lit N (-109354441365023375605386187396769407) (-44);
   lit N 869864874494504124133753763383393013 (-47);
   lit N (-868995878615888235897855907475917096) (-49);
   lit N 100812540802188133105305292318749173 (-50);
   lit N (-130160058071551887185136369583811112) (-52)
].

(* src/c/Li5.c:117-255 *)
Definition c_cli5_l (z : cpx N) : cpx N :=
  let PI := lit N 314159265358979323846264338327950288 (-35) in
  let PI2 := PI * PI in
  let PI4 := PI2 * PI2 in
  let zeta5 := lit N 103692775514336992633136548645703417 (-35) in
  let rz := fst z in
  let iz := snd z in
  let k1 (_ : unit) :=
    let nz := nhypot N rz iz in
    let pz := natan2 N iz rz in
    let lnz := nlog N nz in
    if ltb N (lnz * lnz + pz * pz) (lit N 1 0) then
      let u := (lnz, pz) in
      let u2 := cmul N u u in
      let c0 := zeta5 in
      let c1 := lit N 10823232337111381915160036965411679 (-34) in
      let c2 := lit N 601028451579797142699869080755724995 (-36) in
      let c3 := lit N 274155677808037739412069194441004198 (-36) in
      let c4 := cdiv_cr N (csub_rc N ((lit N 25 0) / (lit N 12 0)) (c_pos_clogl (copp N u))) (lit N 24 0) in
      let c5 := (lit N (-1) 0) / (lit N 240 0) in
      let sum := (lit N 0 0, lit N 0 0) in
      let sum := sumdown 0%nat u2 c_cli5_l_cs in
      cadd N (cadd_rc N c0 (cmul_cr N u c1)) (cmul N u2 (cadd N (cadd_rc N c2 (cmul_cr N u c3)) (cmul N u2 (cadd N (cadd N c4 (cmul_cr N u c5)) sum))))
    else
      let u := (lit N 0 0, lit N 0 0) in
      let rest := (lit N 0 0, lit N 0 0) in
      let '(u, rest) :=
        if leb N nz (lit N 1 0) then
          let u := copp N (c_pos_clogl (csub_rc N (lit N 1 0) z)) in
          (u, rest)
        else
          let arg := if ltb N (lit N 0 0) pz then (pz - PI) else (pz + PI) in
          let lmz := (lnz, arg) in
          let lmz2 := cmul N lmz lmz in
          let u := copp N (c_pos_clogl (csub_rc N (lit N 1 0) (cdiv_rc N (lit N 1 0) z))) in
          let rest := cmul N (cmul_rc N ((lit N (-1) 0) / (lit N 360 0)) lmz) (cadd_rc N ((lit N 7 0) * PI4) (cmul N lmz2 (cadd_rc N ((lit N 10 0) * PI2) (cmul_rc N (lit N 3 0) lmz2)))) in
          (u, rest) in
      let sum := (lit N 0 0, lit N 0 0) in
      let sum := sumdown 0%nat u c_cli5_l_bf in
      cadd N rest sum in
  if eqb N iz (lit N 0 0) then
    if eqb N rz (lit N 0 0) then
      (rz, iz)
    else if eqb N rz (lit N 1 0) then
      (zeta5, iz)
    else if eqb N rz (lit N (-1) 0) then
      ((lit N (-15) 0) * zeta5 / (lit N 16 0), iz)
    else
      k1 tt
  else
    k1 tt.

(* src/c/Li5.c:123  array bf[45] *)
Definition c_cli5_q_bf : list N := [
   lit N 1 0;
   (lit N (-15) 0) / (lit N 32 0);
   lit N 139531893004115226337448559670781893 (-36);
   lit N (-286337770061728395061728395061728395) (-37);
   lit N 403174125514403292181069958847736626 (-38);
   lit N (-33985018004115226337448559670781893) (-38);
   lit N 454451846216176664909446003743133026 (-41);
   lit N 239168080485690118829088702752453967 (-41);
   lit N (-127626926001227465885443518981747128) (-42);
   lit N (-316289843065059324402567872795470007) (-43);
   lit N 328481184453351916215185742384719818 (-44);
   lit N 476137139956605790483191328977324967 (-45);
   lit N (-80846898171909830256460260362331749) (-45);
   lit N (-72387648587737206946829215837589758) (-46);
   lit N 194397601151739684930556492093599766 (-47);
   lit N 102569784059772359718813559433198981 (-48);
   lit N (-461805510098848301805820862410656158) (-49);
   lit N (-115358571964705800368425114834190972) (-50);
   lit N 109035454013333939879770883809662643 (-50);
   lit N 231481363172925263940797103190091493 (-53);
   lit N (-256699170432652921943348919933966693) (-52);
   lit N 457086206073149690144959626860139115 (-54);
   lit N 60366779613205705882356103311410709 (-53);
   lit N (-216776249440624129587941717218396578) (-55);
   lit N (-14194096615600165298332266882011213) (-54);
   lit N 750200095064138625532377521619527234 (-57);
   lit N 333870453950783971643715159254469304 (-57);
   lit N (-230600404426203476825215151352586388) (-58);
   lit N (-78581732456894818904499064631502735) (-58);
   lit N 666834530437388085486513704613056895 (-60);
   lit N 185091565409252971894649796883651603 (-60);
   lit N (-185915294451740855841031840576364891) (-61);
   lit N (-436297464803458904472660817437095794) (-62);
   lit N 506110760995292844822634895878109349 (-63);
   lit N 102919182497568782037888979300008731 (-63);
   lit N (-135513912210183166156877853283041765) (-64);
   lit N (-242940596129573826559241540956570701) (-65);
   lit N 358519739665037052115164738053066333 (-66);
   lit N 573796581610397206400846538673280837 (-67);
   lit N (-940035936245687345352774520389480989) (-68);
   lit N (-135590280493486311500090284171223034) (-68);
   lit N 244784384191528918377859141748058708 (-69);
   lit N 320528849130720958124170712217928968 (-70);
   lit N (-63398387818525482796415237594217452) (-70);
   lit N (-757925545801218291534870941639851689) (-72)
].

(* src/c/Li5.c:202  array cs[18] *)
Definition c_cli5_q_cs : list N := [
   lit N (-115740740740740740740740740740740741) (-39);
   lit N 20667989417989417989417989417989418 (-41);
   lit N (-109354441365023375605386187396769407) (-44);
   lit N 869864874494504124133753763383393013 (-47);
   lit N (-868995878615888235897855907475917096) (-49);
   lit N 100812540802188133105305292318749173 (-50);
   lit N (-130160058071551887185136369583811112) (-52);
   lit N 182193858376471817317584461603964703 (-54);
   lit N (-271703945984843566116551019291461834) (-56);
   lit N 426404710646461092493552846764602135 (-58);
   lit N (-697907523609028772068847244464155123) (-60);
   lit N 118322350137468824961908885022923872 (-61);
   lit N (-206699310884539801347149709357488995) (-63);
   lit N 370514089192917181888714449508744051 (-65);
   lit N (-679216396752655546304766934905316826) (-67);
   lit N 126987457489641744061409835124861589 (-68);
   lit N (-241590408788077922327391223699041147) (-70);
   lit N 466812326074215685597260023169508118 (-72)
].

(* src/c/Li5.c:117-255 *)
Definition c_cli5_q (z : cpx N) : cpx N :=
  let PI := lit N 314159265358979323846264338327950288 (-35) in
  let PI2 := PI * PI in
  let PI4 := PI2 * PI2 in
  let zeta5 := lit N 103692775514336992633136548645703417 (-35) in
  let rz := fst z in
  let iz := snd z in
  let k1 (_ : unit) :=
    let nz := nhypot N rz iz in
    let pz := natan2 N iz rz in
    let lnz := nlog N nz in
    if ltb N (lnz * lnz + pz * pz) (lit N 1 0) then
      let u := (lnz, pz) in
      let u2 := cmul N u u in
      let c0 := zeta5 in
      let c1 := lit N 10823232337111381915160036965411679 (-34) in
      let c2 := lit N 601028451579797142699869080755724995 (-36) in
      let c3 := lit N 274155677808037739412069194441004198 (-36) in
      let c4 := cdiv_cr N (csub_rc N ((lit N 25 0) / (lit N 12 0)) (c_pos_clogl (copp N u))) (lit N 24 0) in
      let c5 := (lit N (-1) 0) / (lit N 240 0) in
      let sum := (lit N 0 0, lit N 0 0) in
      let sum := sumdown 0%nat u2 c_cli5_q_cs in
      cadd N (cadd_rc N c0 (cmul_cr N u c1)) (cmul N u2 (cadd N (cadd_rc N c2 (cmul_cr N u c3)) (cmul N u2 (cadd N (cadd N c4 (cmul_cr N u c5)) sum))))
    else
      let u := (lit N 0 0, lit N 0 0) in
      let rest := (lit N 0 0, lit N 0 0) in
      let '(u, rest) :=
        if leb N nz (lit N 1 0) then
          let u := copp N (c_pos_clogl (csub_rc N (lit N 1 0) z)) in
          (u, rest)
        else
          let arg := if ltb N (lit N 0 0) pz then (pz - PI) else (pz + PI) in
          let lmz := (lnz, arg) in
          let lmz2 := cmul N lmz lmz in
          let u := copp N (c_pos_clogl (csub_rc N (lit N 1 0) (cdiv_rc N (lit N 1 0) z))) in
          let rest := cmul N (cmul_rc N ((lit N (-1) 0) / (lit N 360 0)) lmz) (cadd_rc N ((lit N 7 0) * PI4) (cmul N lmz2 (cadd_rc N ((lit N 10 0) * PI2) (cmul_rc N (lit N 3 0) lmz2)))) in
          (u, rest) in
      let sum := (lit N 0 0, lit N 0 0) in
      let sum := sumdown 0%nat u c_cli5_q_bf in
      cadd N rest sum in
  if eqb N iz (lit N 0 0) then
    if eqb N rz (lit N 0 0) then
      (rz, iz)
    else if eqb N rz (lit N 1 0) then
      (zeta5, iz)
    else if eqb N rz (lit N (-1) 0) then
      ((lit N (-15) 0) * zeta5 / (lit N 16 0), iz)
    else
      k1 tt
  else
    k1 tt.

(* src/c/Li6.c:26  array bf[18] *)
Definition c_cli6_d_bf : list N := [
   lit N 1 0;
   (lit N (-31) 0) / (lit N 64 0);
   lit N 15241340877914952 (-17);
   lit N (-34365555877057613) (-18);
   lit N 57174797239368999 (-19);
   lit N (-68180453746570645) (-20);
   lit N 49960361948734493 (-21);
   lit N (-49166051196039048) (-23);
   lit N (-30632975161302164) (-23);
   lit N 14414599270849095 (-24);
   lit N 37272438230924107 (-25);
   lit N (-37300867345487607) (-26);
   lit N (-51246526816085832) (-27);
   lit N 90541930956636683 (-28);
   lit N 67381882615512517 (-29);
   lit N (-21215831150303135) (-29);
   lit N (-68408811719011698) (-31);
   lit N 48691178462005581 (-31)
].

(* src/c/Li6.c:68  array cs[5] *)
Definition c_cli6_d_cs : list N := [
   lit N (-16534391534391534) (-21);
   lit N 22964432686654909 (-24);
   lit N (-99413128513657614) (-27);
   lit N 66912682653423394 (-29);
   lit N (-57933058574392549) (-31)
].

(* src/c/Li6.c:19-112 *)
Definition c_cli6_d (z : cpx N) : cpx N :=
  let PI := lit N 31415926535897932 (-16) in
  let PI2 := PI * PI in
  let PI4 := PI2 * PI2 in
  let PI6 := PI2 * PI4 in
  let zeta6 := lit N 10173430619844491 (-16) in
  let rz := fst z in
  let iz := snd z in
  let k1 (_ : unit) :=
    let nz := nhypot N rz iz in
    let pz := natan2 N iz rz in
    let lnz := nlog N nz in
    if ltb N (lnz * lnz + pz * pz) (lit N 1 0) then
      let u := (lnz, pz) in
      let u2 := cmul N u u in
      let c0 := zeta6 in
      let c1 := lit N 10369277551433699 (-16) in
      let c2 := lit N 5411616168555691 (-16) in
      let c3 := lit N 20034281719326571 (-17) in
      let c4 := lit N 68538919452009435 (-18) in
      let c5 := cdiv_cr N (csub_rc N ((lit N 137 0) / (lit N 60 0)) (c_pos_clog (copp N u))) (lit N 120 0) in
      let c6 := (lit N (-1) 0) / (lit N 1440 0) in
      cadd N (cadd_rc N c0 (cmul_cr N u c1)) (cmul N u2 (cadd N (cadd_rc N c2 (cmul_cr N u c3)) (cmul N u2 (cadd N (cadd_rc N c4 (cmul N u c5)) (cmul N u2 (cadd_rc N c6 (cmul N u (cadd_rc N (aref N c_cli6_d_cs 0) (cmul N u2 (cadd_rc N (aref N c_cli6_d_cs 1) (cmul N u2 (cadd_rc N (aref N c_cli6_d_cs 2) (cmul N u2 (cadd_rc N (aref N c_cli6_d_cs 3) (cmul_cr N u2 (aref N c_cli6_d_cs 4))))))))))))))))
    else
      let u := (lit N 0 0, lit N 0 0) in
      let r := (lit N 0 0, lit N 0 0) in
      let sgn := lit N 1 0 in
      let '(u, r, sgn) :=
        if leb N nz (lit N 1 0) then
          let u := copp N (c_pos_clog (csub_rc N (lit N 1 0) z)) in
          (u, r, sgn)
        else
          let arg := if ltb N (lit N 0 0) pz then (pz - PI) else (pz + PI) in
          let lmz := (lnz, arg) in
          let lmz2 := cmul N lmz lmz in
          let u := copp N (c_pos_clog (csub_rc N (lit N 1 0) (cdiv_rc N (lit N 1 0) z))) in
          let r := cadd_rc N ((lit N (-31) 0) * PI6 / (lit N 15120 0)) (cmul N lmz2 (cadd_rc N ((lit N (-7) 0) / (lit N 720 0) * PI4) (cmul N lmz2 (csub_rc N ((lit N (-1) 0) / (lit N 144 0) * PI2) (cmul_rc N ((lit N 1 0) / (lit N 720 0)) lmz2))))) in
          let sgn := lit N (-1) 0 in
          (u, r, sgn) in
      let u2 := cmul N u u in
      let u4 := cmul N u2 u2 in
      let u8 := cmul N u4 u4 in
      cadd N r (cmul_rc N sgn (cadd N (cadd N (cadd N (cadd N (cmul_cr N u (aref N c_cli6_d_bf 0)) (cmul N u2 (cadd_rc N (aref N c_cli6_d_bf 1) (cmul_cr N u (aref N c_cli6_d_bf 2))))) (cmul N u4 (cadd N (cadd_rc N (aref N c_cli6_d_bf 3) (cmul_cr N u (aref N c_cli6_d_bf 4))) (cmul N u2 (cadd_rc N (aref N c_cli6_d_bf 5) (cmul_cr N u (aref N c_cli6_d_bf 6))))))) (cmul N u8 (cadd N (cadd N (cadd_rc N (aref N c_cli6_d_bf 7) (cmul_cr N u (aref N c_cli6_d_bf 8))) (cmul N u2 (cadd_rc N (aref N c_cli6_d_bf 9) (cmul_cr N u (aref N c_cli6_d_bf 10))))) (cmul N u4 (cadd N (cadd_rc N (aref N c_cli6_d_bf 11) (cmul_cr N u (aref N c_cli6_d_bf 12))) (cmul N u2 (cadd_rc N (aref N c_cli6_d_bf 13) (cmul_cr N u (aref N c_cli6_d_bf 14))))))))) (cmul N (cmul N u8 u8) (cadd N (cadd_rc N (aref N c_cli6_d_bf 15) (cmul_cr N u (aref N c_cli6_d_bf 16))) (cmul_cr N u2 (aref N c_cli6_d_bf 17)))))) in
  if eqb N iz (lit N 0 0) then
    if eqb N rz (lit N 0 0) then
      (rz, iz)
    else if eqb N rz (lit N 1 0) then
      (zeta6, iz)
    else if eqb N rz (lit N (-1) 0) then
      ((lit N (-31) 0) * zeta6 / (lit N 32 0), iz)
    else
      k1 tt
  else
    k1 tt.

(* src/c/Li6.c:128  array bf[22] *)
Definition c_cli6_l_bf : list N := [
   lit N 1 0;
   (lit N (-31) 0) / (lit N 64 0);
   lit N 152413408779149519890260631001371742 (-36);
   lit N (-343655558770576131687242798353909465) (-37);
   lit N 571747972393689986282578875171467764 (-38);
   lit N (-681804537465706447187928669410150892) (-39);
   lit N 499603619487344931145170169621327906 (-40);
   lit N (-491660511960390477202530822164616726) (-42);
   lit N (-306329751613021637853530304310404212) (-42);
   lit N 144145992708490953612537421448012923 (-43);
   lit N 372724382309241065768599245664598825 (-44);
   lit N (-373008673454876072077977229159261141) (-45);
   lit N (-512465268160858324340087646115722592) (-46);
   lit N 905419309566366828868797447620893807 (-47);
   lit N 673818826155125170776107544938009482 (-48);
   lit N (-21215831150303135318527968929660953) (-47);
   lit N (-684088117190116976639204518781909079) (-50);
   lit N 486911784620055813206387586512917456 (-50);
   lit N (-48439878499872504165088964747315942) (-52);
   lit N (-110271048491074909370430302576046237) (-51);
   lit N 333537969169393816624889411840735964 (-53);
   lit N 247353074886413529791540987487137046 (-53)
].

(* src/c/Li6.c:208  array cs[6] *)
Definition c_cli6_l_cs : list N := [
   lit N (-165343915343915343915343915343915344) (-40);
   lit N 229644326866549088771310993533215755 (-43);
   lit N (-994131285136576141867147158152449158) (-46);
   lit N 669126826534233941641349048756456164 (-48);
   lit N (-579330585743925490598570604983944731) (-50);
   lit N 593014945895224312384148778345583373 (-52)
].

(* src/c/Li6.c:121-269 *)
Definition c_cli6_l (z : cpx N) : cpx N :=
  let PI := lit N 314159265358979323846264338327950288 (-35) in
  let PI2 := PI * PI in
  let PI4 := PI2 * PI2 in
  let PI6 := PI2 * PI4 in
  let zeta6 := lit N 101734306198444913971451792979092053 (-35) in
  let rz := fst z in
  let iz := snd z in
  let k1 (_ : unit) :=
    let nz := nhypot N rz iz in
    let pz := natan2 N iz rz in
    let lnz := nlog N nz in
    if ltb N (lnz * lnz + pz * pz) (lit N 1 0) then
      let u := (lnz, pz) in
      let u2 := cmul N u u in
      let c0 := zeta6 in
      let c1 := lit N 103692775514336992633136548645703417 (-35) in
      let c2 := lit N 541161616855569095758001848270583951 (-36) in
      let c3 := lit N 200342817193265714233289693585241665 (-36) in
      let c4 := lit N 685389194520094348530172986102510496 (-37) in
      let c5 := cdiv_cr N (csub_rc N ((lit N 137 0) / (lit N 60 0)) (c_pos_clogl (copp N u))) (lit N 120 0) in
      let c6 := (lit N (-1) 0) / (lit N 1440 0) in
      let sum := (lit N 0 0, lit N 0 0) in
      let sum := sumdown 1%nat u2 c_cli6_l_cs in
      cadd N (cadd_rc N c0 (cmul_cr N u c1)) (cmul N u2 (cadd N (cadd_rc N c2 (cmul_cr N u c3)) (cmul N u2 (cadd N (cadd_rc N c4 (cmul N u c5)) (cmul N u2 (cadd_rc N c6 (cmul N u (cadd_rc N (aref N c_cli6_l_cs 0) sum))))))))
    else
      let u := (lit N 0 0, lit N 0 0) in
      let r := (lit N 0 0, lit N 0 0) in
      let sgn := lit N 1 0 in
      let '(u, r, sgn) :=
        if leb N nz (lit N 1 0) then
          let u := copp N (c_pos_clogl (csub_rc N (lit N 1 0) z)) in
          (u, r, sgn)
        else
          let arg := if ltb N (lit N 0 0) pz then (pz - PI) else (pz + PI) in
          let lmz := (lnz, arg) in
          let lmz2 := cmul N lmz lmz in
          let u := copp N (c_pos_clogl (csub_rc N (lit N 1 0) (cdiv_rc N (lit N 1 0) z))) in
          let r := cadd_rc N ((lit N (-31) 0) * PI6 / (lit N 15120 0)) (cmul N lmz2 (cadd_rc N ((lit N (-7) 0) / (lit N 720 0) * PI4) (cmul N lmz2 (csub_rc N ((lit N (-1) 0) / (lit N 144 0) * PI2) (cmul_rc N ((lit N 1 0) / (lit N 720 0)) lmz2))))) in
          let sgn := lit N (-1) 0 in
          (u, r, sgn) in
      let sum := (lit N 0 0, lit N 0 0) in
      let sum := sumdown 0%nat u c_cli6_l_bf in
      cadd N (cmul_rc N sgn sum) r in
  if eqb N iz (lit N 0 0) then
    if eqb N rz (lit N 0 0) then
      (rz, iz)
    else if eqb N rz (lit N 1 0) then
      (zeta6, iz)
    else if eqb N rz (lit N (-1) 0) then
      ((lit N (-31) 0) * zeta6 / (lit N 32 0), iz)
    else
      k1 tt
  else
    k1 tt.

(* src/c/Li6.c:128  array bf[45] *)
Definition c_cli6_q_bf : list N := [
   lit N 1 0;
   (lit N (-31) 0) / (lit N 64 0);
   lit N 152413408779149519890260631001371742 (-36);
   lit N (-343655558770576131687242798353909465) (-37);
   lit N 571747972393689986282578875171467764 (-38);
   lit N (-681804537465706447187928669410150892) (-39);
   lit N 499603619487344931145170169621327906 (-40);
   lit N (-491660511960390477202530822164616726) (-42);
   lit N (-306329751613021637853530304310404212) (-42);
   lit N 144145992708490953612537421448012923 (-43);
   lit N 372724382309241065768599245664598825 (-44);
   lit N (-373008673454876072077977229159261141) (-45);
   lit N (-512465268160858324340087646115722592) (-46);
   lit N 905419309566366828868797447620893807 (-47);
   lit N 673818826155125170776107544938009482 (-48);
   lit N (-21215831150303135318527968929660953) (-47);
   lit N (-684088117190116976639204518781909079) (-50);
   lit N 486911784620055813206387586512917456 (-50);
   lit N (-48439878499872504165088964747315942) (-52);
   lit N (-110271048491074909370430302576046237) (-51);
   lit N 333537969169393816624889411840735964 (-53);
   lit N 247353074886413529791540987487137046 (-53);
   lit N (-143706164342324920216883687134737009) (-54);
   lit N (-550471103350981180614826435059791109) (-55);
   lit N 474677139173272249791309840662617185 (-56);
   lit N 121583871780681052243739817416294433 (-56);
   lit N (-141075524035618500414240309078008657) (-57);
   lit N (-266388312532683465965856437677118103) (-58);
   lit N 396676574286310079767900226081781935 (-59);
   lit N 578216973585436153112366193481125963 (-60);
   lit N (-107877780631642573172998876995922389) (-60);
   lit N (-124073970867569098990147736977589145) (-61);
   lit N 287041179178936017042609524684092346 (-62);
   lit N 26235553563029330616574752038360682 (-62);
   lit N (-752294854657541272615881214134337672) (-64);
   lit N (-544017883796246961820291930722306669) (-65);
   lit N 195025795325101663793862223381656999 (-65);
   lit N 109784942822051879961178213597012971 (-66);
   lit N (-501495835741630092074469585415763612) (-67);
   lit N (-21286737504392761053563380691739178) (-67);
   lit N 128159440165221259409319852281486752 (-68);
   lit N 38710844733047944162220456869760746 (-69);
   lit N (-325941253155837592741689642881678163) (-70);
   lit N (-625269198847740581093233860701356903) (-72);
   lit N 825794162051839801918004563317046685 (-72)
].

(* src/c/Li6.c:208  array cs[17] *)
Definition c_cli6_q_cs : list N := [
   lit N (-165343915343915343915343915343915344) (-40);
   lit N 229644326866549088771310993533215755 (-43);
   lit N (-994131285136576141867147158152449158) (-46);
   lit N 669126826534233941641349048756456164 (-48);
   lit N (-579330585743925490598570604983944731) (-50);
   lit N 593014945895224312384148778345583373 (-52);
   lit N (-685052937218694143079665103072690062) (-54);
   lit N 867589801792722939607545055256974774 (-56);
   lit N (-118132150428192854833283051865852971) (-57);
   lit N 170561884258584436997421138705840854 (-59);
   lit N (-258484268003343989655128609060798194) (-61);
   lit N 408008103922306292972099603527323696 (-63);
   lit N (-666771970595289681764999062443512889) (-65);
   lit N 1122769967251264187541558937905285 (-64);
   lit N (-194061827643615870372790552830090522) (-68);
   lit N 343209344566599308274080635472598888 (-70);
   lit N (-619462586636097236736900573587284992) (-72)
].

(* src/c/Li6.c:121-269 *)
Definition c_cli6_q (z : cpx N) : cpx N :=
  let PI := lit N 314159265358979323846264338327950288 (-35) in
  let PI2 := PI * PI in
  let PI4 := PI2 * PI2 in
  let PI6 := PI2 * PI4 in
  let zeta6 := lit N 101734306198444913971451792979092053 (-35) in
  let rz := fst z in
  let iz := snd z in
  let k1 (_ : unit) :=
    let nz := nhypot N rz iz in
    let pz := natan2 N iz rz in
    let lnz := nlog N nz in
    if ltb N (lnz * lnz + pz * pz) (lit N 1 0) then
      let u := (lnz, pz) in
      let u2 := cmul N u u in
      let c0 := zeta6 in
      let c1 := lit N 103692775514336992633136548645703417 (-35) in
      let c2 := lit N 541161616855569095758001848270583951 (-36) in
      let c3 := lit N 200342817193265714233289693585241665 (-36) in
      let c4 := lit N 685389194520094348530172986102510496 (-37) in
      let c5 := cdiv_cr N (csub_rc N ((lit N 137 0) / (lit N 60 0)) (c_pos_clogl (copp N u))) (lit N 120 0) in
      let c6 := (lit N (-1) 0) / (lit N 1440 0) in
      let sum := (lit N 0 0, lit N 0 0) in
      let sum := sumdown 1%nat u2 c_cli6_q_cs in
      cadd N (cadd_rc N c0 (cmul_cr N u c1)) (cmul N u2 (cadd N (cadd_rc N c2 (cmul_cr N u c3)) (cmul N u2 (cadd N (cadd_rc N c4 (cmul N u c5)) (cmul N u2 (cadd_rc N c6 (cmul N u (cadd_rc N (aref N c_cli6_q_cs 0) sum))))))))
    else
      let u := (lit N 0 0, lit N 0 0) in
      let r := (lit N 0 0, lit N 0 0) in
      let sgn := lit N 1 0 in
      let '(u, r, sgn) :=
        if leb N nz (lit N 1 0) then
          let u := copp N (c_pos_clogl (csub_rc N (lit N 1 0) z)) in
          (u, r, sgn)
        else
          let arg := if ltb N (lit N 0 0) pz then (pz - PI) else (pz + PI) in
          let lmz := (lnz, arg) in
          let lmz2 := cmul N lmz lmz in
          let u := copp N (c_pos_clogl (csub_rc N (lit N 1 0) (cdiv_rc N (lit N 1 0) z))) in
          let r := cadd_rc N ((lit N (-31) 0) * PI6 / (lit N 15120 0)) (cmul N lmz2 (cadd_rc N ((lit N (-7) 0) / (lit N 720 0) * PI4) (cmul N lmz2 (csub_rc N ((lit N (-1) 0) / (lit N 144 0) * PI2) (cmul_rc N ((lit N 1 0) / (lit N 720 0)) lmz2))))) in
          let sgn := lit N (-1) 0 in
          (u, r, sgn) in
      let sum := (lit N 0 0, lit N 0 0) in
      let sum := sumdown 0%nat u c_cli6_q_bf in
      cadd N (cmul_rc N sgn sum) r in
  if eqb N iz (lit N 0 0) then
    if eqb N rz (lit N 0 0) then
      (rz, iz)
    else if eqb N rz (lit N 1 0) then
      (zeta6, iz)
    else if eqb N rz (lit N (-1) 0) then
      ((lit N (-31) 0) * zeta6 / (lit N 32 0), iz)
    else
      k1 tt
  else
    k1 tt.

End M.
