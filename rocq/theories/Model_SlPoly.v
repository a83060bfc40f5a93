(** * Model of the closed formulas of Sl.cpp, n = 1..25

    Transcribed from the C++ sources by tools/gen_models.py (expression by
    expression, with C++ precedence and associativity); every definition cites
    the lines it models.  Suffixes: _f float, _d double, _l long double with
    LDBL_DIG <= 18 (x87), _q long double with LDBL_DIG > 18 (quadruple). *)
From Coq Require Import ZArith List Bool.
From Verif Require Import Num.
Import ListNotations.
Local Open Scope Z_scope.

Section M.
Variable N : num.
Local Notation "x + y" := (add N x y).
Local Notation "x - y" := (sub N x y).
Local Notation "x * y" := (mul N x y).
Local Notation "x / y" := (div N x y).
Local Notation aref N c i := (Num.aref N c i%nat).
Local Notation chorner N k := (Num.chorner N k%nat).

(* src/cpp/Sl.cpp:15 *)
Definition Sl_PI : car N := lit N 314159265358979324 (-17).

(* src/cpp/Sl.cpp:16  constexpr double PI2 = PI*PI *)
Definition Sl_PI2 : car N := Sl_PI * Sl_PI.

(* src/cpp/Sl.cpp:137  branch n == 1 *)
Definition Sl_poly_1 (sgn x : car N) : car N :=
  let PI := Sl_PI in let PI2 := Sl_PI2 in
  let x2 := x * x in
  sgn * (PI / (lit N 2 0) - (lit N 1 0) / (lit N 2 0) * x).

(* src/cpp/Sl.cpp:138  branch n == 2 *)
Definition Sl_poly_2 (sgn x : car N) : car N :=
  let PI := Sl_PI in let PI2 := Sl_PI2 in
  let x2 := x * x in
  sgn * (PI2 / (lit N 6 0) + ((lit N (-1) 0) / (lit N 2 0) * PI + (lit N 1 0) / (lit N 4 0) * x) * x).

(* src/cpp/Sl.cpp:139  branch n == 3 *)
Definition Sl_poly_3 (sgn x : car N) : car N :=
  let PI := Sl_PI in let PI2 := Sl_PI2 in
  let x2 := x * x in
  sgn * (x * (PI2 / (lit N 6 0) + ((lit N (-1) 0) / (lit N 4 0) * PI + (lit N 1 0) / (lit N 12 0) * x) * x)).

(* src/cpp/Sl.cpp:143  branch n == 4 *)
Definition Sl_poly_4 (sgn x : car N) : car N :=
  let PI := Sl_PI in let PI2 := Sl_PI2 in
  let x2 := x * x in
  sgn * ((lit N 108232323371113819151600369654116790324 (-38)) + ((lit N (-82246703342411321823620758332301259476) (-38)) + ((lit N 26179938779914943653855361527329190704 (-38)) - (lit N 2083333333333333333333333333333333333 (-38)) * x) * x) * x2).

(* src/cpp/Sl.cpp:144  branch n == 5 *)
Definition Sl_poly_5 (sgn x : car N) : car N :=
  let PI := Sl_PI in let PI2 := Sl_PI2 in
  let x2 := x * x in
  sgn * (x * ((lit N 108232323371113819151600369654116790324 (-38)) + ((lit N (-27415567780803773941206919444100419825) (-38)) + ((lit N 6544984694978735913463840381832297676 (-38)) - (lit N 416666666666666666666666666666666667 (-38)) * x) * x) * x2)).

(* src/cpp/Sl.cpp:145  branch n == 6 *)
Definition Sl_poly_6 (sgn x : car N) : car N :=
  let PI := Sl_PI in let PI2 := Sl_PI2 in
  let x2 := x * x in
  sgn * ((lit N 101734306198444913971451792979092052962 (-38)) + x2 * ((lit N (-54116161685556909575800184827058395148) (-38)) + ((lit N 6853891945200943485301729861025104957 (-38)) + ((lit N (-1308996938995747182692768076366459535) (-38)) + (lit N 69444444444444444444444444444444444 (-38)) * x) * x) * x2)).

(* src/cpp/Sl.cpp:146  branch n == 7 *)
Definition Sl_poly_7 (sgn x : car N) : car N :=
  let PI := Sl_PI in let PI2 := Sl_PI2 in
  let x2 := x * x in
  sgn * (x * ((lit N 101734306198444913971451792979092052962 (-38)) + x2 * ((lit N (-18038720561852303191933394942352798392) (-38)) + ((lit N 137077838904018869706034597220502099 (-37)) + ((lit N (-218166156499291197115461346061076589) (-38)) + (lit N 9920634920634920634920634920634921 (-38)) * x) * x) * x2))).

(* src/cpp/Sl.cpp:147  branch n == 8 *)
Definition Sl_poly_8 (sgn x : car N) : car N :=
  let PI := Sl_PI in let PI2 := Sl_PI2 in
  let x2 := x * x in
  sgn * ((lit N 100407735619794433937868523850865245599 (-38)) + x2 * ((lit N (-50867153099222456985725896489546026481) (-38)) + x2 * ((lit N 4509680140463075797983348735588199584 (-38)) + ((lit N (-228463064840031449510057662034170166) (-38)) + ((lit N 31166593785613028159351620865868084 (-38)) - (lit N 1240079365079365079365079365079365 (-38)) * x) * x) * x2))).

(* src/cpp/Sl.cpp:148  branch n == 9 *)
Definition Sl_poly_9 (sgn x : car N) : car N :=
  let PI := Sl_PI in let PI2 := Sl_PI2 in
  let x2 := x * x in
  sgn * (x * ((lit N 100407735619794433937868523850865245599 (-38)) + x2 * ((lit N (-1695571769974081899524196549651534216) (-37)) + x2 * ((lit N 901936028092615159596669747117639928 (-38)) + ((lit N (-32637580691433064215722523147738596) (-38)) + ((lit N 3895824223201628519918952608233511 (-38)) - (lit N 137786596119929453262786596119929 (-38)) * x) * x) * x2)))).

(* src/cpp/Sl.cpp:149  branch n == 10 *)
Definition Sl_poly_10 (sgn x : car N) : car N :=
  let PI := Sl_PI in let PI2 := Sl_PI2 in
  let x2 := x * x in
  sgn * ((lit N 100099457512781808533714595890031902742 (-38)) + x2 * ((lit N (-50203867809897216968934261925432624194) (-38)) + x2 * ((lit N 423892942493520474881049137412883547 (-37)) + x2 * ((lit N (-15032267134876919326611162451960666) (-37)) + ((lit N 4079697586429133026965315393467323 (-38)) + ((lit N (-432869358133514279990994734248167) (-38)) + (lit N 13778659611992945326278659611993 (-38)) * x) * x) * x2)))).

(* src/cpp/Sl.cpp:150  branch n == 11 *)
Definition Sl_poly_11 (sgn x : car N) : car N :=
  let PI := Sl_PI in let PI2 := Sl_PI2 in
  let x2 := x * x in
  sgn * (x * ((lit N 100099457512781808533714595890031902742 (-38)) + x2 * ((lit N (-16734622603299072322978087308477541398) (-38)) + x2 * ((lit N 847785884987040949762098274825766981 (-38)) + x2 * ((lit N (-21474667335538456180873089217086662) (-38)) + ((lit N 453299731825459225218368377051925 (-38)) + ((lit N (-43286935813351427999099473424817) (-38)) + (lit N 1252605419272085938752605419272 (-38)) * x) * x) * x2))))).

(* src/cpp/Sl.cpp:151  branch n == 12 *)
Definition Sl_poly_12 (sgn x : car N) : car N :=
  let PI := Sl_PI in let PI2 := Sl_PI2 in
  let x2 := x * x in
  sgn * ((lit N 100024608655330804829863799804773972216 (-38)) + x2 * ((lit N (-50049728756390904266857297945015937611) (-38)) + x2 * ((lit N 4183655650824768080744521827119384652 (-38)) + x2 * ((lit N (-141297647497840158293683045804294403) (-38)) + x2 * ((lit N 2684333416942307022609136152135836 (-38)) + ((lit N (-45329973182545922521836837705192) (-38)) + ((lit N 3935175983031947999918133947711 (-38)) - (lit N 104383784939340494896050451606 (-38)) * x) * x) * x2))))).

(* src/cpp/Sl.cpp:152  branch n == 13 *)
Definition Sl_poly_13 (sgn x : car N) : car N :=
  let PI := Sl_PI in let PI2 := Sl_PI2 in
  let x2 := x * x in
  sgn * (x * ((lit N 100024608655330804829863799804773972216 (-38)) + x2 * ((lit N (-16683242918796968088952432648338636697) (-38)) + x2 * ((lit N 836731130164953616148904365423876373 (-38)) + x2 * ((lit N (-20185378213977165470526149400613446) (-38)) + x2 * ((lit N 298259268549145224734348461348417 (-38)) + ((lit N (-4120906652958720229257894336836) (-38)) + ((lit N 327931331919328999993177828976 (-38)) - (lit N 8029521918410807299696188585 (-38)) * x) * x) * x2)))))).

(* src/cpp/Sl.cpp:153  branch n == 14 *)
Definition Sl_poly_14 (sgn x : car N) : car N :=
  let PI := Sl_PI in let PI2 := Sl_PI2 in
  let x2 := x * x in
  sgn * ((lit N 100006124813505870482925854510513864395 (-38)) + x2 * ((lit N (-50012304327665402414931899902386850299) (-38)) + x2 * ((lit N 4170810729699242022238108162084659174 (-38)) + x2 * ((lit N (-13945518836082560269148406090398079) (-37)) + x2 * ((lit N 252317227674714568381576867507661 (-37)) + x2 * ((lit N (-29825926854914522473434846134856) (-38)) + ((lit N 34340888774656001910482452807 (-37)) + ((lit N (-25225487070717615384090602229) (-38)) + (lit N 573537279886486235692584899 (-38)) * x) * x) * x2)))))).

(* src/cpp/Sl.cpp:154  branch n == 15 *)
Definition Sl_poly_15 (sgn x : car N) : car N :=
  let PI := Sl_PI in let PI2 := Sl_PI2 in
  let x2 := x * x in
  sgn * (x * ((lit N 100006124813505870482925854510513864395 (-38)) + x2 * ((lit N (-16670768109221800804977299967462192893) (-38)) + x2 * ((lit N 834162145939848404447621632416931835 (-38)) + x2 * ((lit N (-19922169765832228955926294414853602) (-38)) + x2 * ((lit N 280352475194127298201752075008418 (-38)) + x2 * ((lit N (-2711447895901320224857713284997) (-38)) + ((lit N 26416068288196924546524963697 (-38)) + ((lit N (-1801820505051258241720757302) (-38)) + (lit N 3823581865909908237950565992894035222077550119 (-58)) * x) * x) * x2))))))).

(* src/cpp/Sl.cpp:155  branch n == 16 *)
Definition Sl_poly_16 (sgn x : car N) : car N :=
  let PI := Sl_PI in let PI2 := Sl_PI2 in
  let x2 := x * x in
  sgn * ((lit N 100001528225940865187173257148771504874 (-38)) + x2 * ((lit N (-50003062406752935241462927255256932198) (-38)) + x2 * ((lit N 4167692027305450201244324991865684033 (-38)) + x2 * ((lit N (-139027024323308067407936938736164479) (-38)) + x2 * ((lit N 24902712207290286194907868018567 (-36)) + x2 * ((lit N (-28035247519412729820175207500757) (-38)) + x2 * ((lit N 225953991325110018738142773754 (-38)) + ((lit N (-1886862020585494610466068836) (-38)) + ((lit N 12012136700341721611471715347102004543167177933 (-58)) - (lit N 238973866619369264871910374555877201379846882 (-58)) * x) * x) * x2))))))).

(* src/cpp/Sl.cpp:156  branch n == 17 *)
Definition Sl_poly_17 (sgn x : car N) : car N :=
  let PI := Sl_PI in let PI2 := Sl_PI2 in
  let x2 := x * x in
  sgn * (x * ((lit N 100001528225940865187173257148771504874 (-38)) + x2 * ((lit N (-16667687468917645080487642418418977399) (-38)) + x2 * ((lit N 833538405461090040248864998373245454 (-38)) + x2 * ((lit N (-19861003474758295343990991248027429) (-38)) + x2 * ((lit N 276696802303225402165642977983148 (-38)) + x2 * ((lit N (-2548658865401157256379564318122) (-38)) + x2 * ((lit N 17381076255777693749087905673 (-38)) + ((lit N (-12579080137236630736440458903649820484513744495) (-58)) + ((lit N 75075854377135760071698220919387528394794862 (-57)) - (lit N 14057286271727603815994727915051600081167463 (-58)) * x) * x) * x2)))))))).

(* src/cpp/Sl.cpp:157  branch n == 18 *)
Definition Sl_poly_18 (sgn x : car N) : car N :=
  let PI := Sl_PI in let PI2 := Sl_PI2 in
  let x2 := x * x in
  sgn * ((lit N 100000381729326499983985646162931158806 (-38)) + x2 * ((lit N (-50000764112970432593586628574372523391) (-38)) + x2 * ((lit N 4166921867229411270121910604605414541 (-38)) + x2 * ((lit N (-138923067576848340041477499728783703) (-38)) + x2 * ((lit N 2482625434344786917998873906006869 (-38)) + x2 * ((lit N (-2766968023032254021656429779943) (-37)) + x2 * ((lit N 212388238783429771364963693188 (-38)) + x2 * ((lit N (-1241505446841263839220564691) (-38)) + ((lit N 786192508577289421027528681478113780282109019 (-58)) + ((lit N (-44162267280668094159822482893757369643996976) (-58)) + (lit N 780960348429311323110818217502866671175969 (-58)) * x) * x) * x2)))))))).

(* src/cpp/Sl.cpp:158  branch n == 19 *)
Definition Sl_poly_19 (sgn x : car N) : car N :=
  let PI := Sl_PI in let PI2 := Sl_PI2 in
  let x2 := x * x in
  sgn * (x * ((lit N 100000381729326499983985646162931158806 (-38)) + x2 * ((lit N (-16666921370990144197862209524782021767) (-38)) + x2 * ((lit N 833384373445882254024382120921082908 (-38)) + x2 * ((lit N (-19846152510978334291639642818358869) (-38)) + x2 * ((lit N 275847270482754101999874878432976 (-38)) + x2 * ((lit N (-2515425475483867292414936163492) (-38)) + x2 * ((lit N 16337556829494597797304899476 (-38)) + x2 * ((lit N (-8276702978941758928137097939516758220936903338) (-58)) + ((lit N 46246618151605260060442863616359634134241695 (-58)) + ((lit N (-2453459293370449675545693494097631646888718) (-58)) + (lit N 41103176233121648584779906184361403746102 (-58)) * x) * x) * x2))))))))).

(* src/cpp/Sl.cpp:159  branch n == 20 *)
Definition Sl_poly_20 (sgn x : car N) : car N :=
  let PI := Sl_PI in let PI2 := Sl_PI2 in
  let x2 := x * x in
  sgn * ((lit N 100000095396203387279611315203997344306 (-38)) + x2 * ((lit N (-50000190864663249991992823081465579403) (-38)) + x2 * ((lit N 4166730342747536049465552381188890919 (-38)) + x2 * ((lit N (-138897395574313709004063686821074073) (-38)) + x2 * ((lit N 2480769063872291786454955352193002 (-38)) + x2 * ((lit N (-27584727048275410199987487844475) (-38)) + x2 * ((lit N 209618789623655607701244680291 (-38)) + x2 * ((lit N (-1166968344963899842664635677) (-38)) + x2 * ((lit N 517293936183859933008568621219797388808556372 (-58)) + ((lit N (-2569256563978070003357936867575535229680093) (-58)) + ((lit N 12912943649318156187082597337355956036256 (-57)) - (lit N 2055158811656082429238995309218070187304 (-58)) * x) * x) * x2))))))))).

(* src/cpp/Sl.cpp:160  branch n == 21 *)
Definition Sl_poly_21 (sgn x : car N) : car N :=
  let PI := Sl_PI in let PI2 := Sl_PI2 in
  let x2 := x * x in
  sgn * (x * ((lit N 100000095396203387279611315203997344306 (-38)) + x2 * ((lit N (-16666730288221083330664274360488526468) (-38)) + x2 * ((lit N 83334606854950720989311047624836142 (-37)) + x2 * ((lit N (-19842485082044815572009098117679263) (-38)) + x2 * ((lit N 27564100709692130960610615025566 (-37)) + x2 * ((lit N (-2507702458934128199998862531316) (-38)) + x2 * ((lit N 16124522278742739053941898484 (-38)) + x2 * ((lit N (-7779788966425998951097571179057633165274733065) (-58)) + x2 * ((lit N 30429055069638819588739330659988081694620908 (-58)) + ((lit N (-13522402968305631596620720355660711735158) (-57)) + ((lit N 6456471824659078093541298668677978018124 (-58)) - (lit N 97864705316956306154237871867527151777 (-58)) * x) * x) * x2)))))))))).

(* src/cpp/Sl.cpp:161  branch n == 22 *)
Definition Sl_poly_22 (sgn x : car N) : car N :=
  let PI := Sl_PI in let PI2 := Sl_PI2 in
  let x2 := x * x in
  sgn * ((lit N 100000023845050272773299000364796200809 (-38)) + x2 * ((lit N (-50000047698101693639805657600710042819) (-38)) + x2 * ((lit N 4166682572055270832666068589991566168 (-38)) + x2 * ((lit N (-138891011424917868315518412712469919) (-38)) + x2 * ((lit N 2480310635255601946501137264645673 (-38)) + x2 * ((lit N (-27564100709692130960610615025566) (-38)) + x2 * ((lit N 208975204911177349999905210943 (-38)) + x2 * ((lit N (-1151751591338767075281564177) (-38)) + x2 * ((lit N 486236810401624934443598198691102072829670529 (-58)) + x2 * ((lit N (-1690503059424378866041073925554893427478879) (-58)) + ((lit N 676120148415281579831036017783035586758 (-57)) + ((lit N (-307451039269479909216252317556094191341) (-58)) + (lit N 4448395696225286643374448721251234172 (-58)) * x) * x) * x2)))))))))).

(* src/cpp/Sl.cpp:162  branch n == 23 *)
Definition Sl_poly_23 (sgn x : car N) : car N :=
  let PI := Sl_PI in let PI2 := Sl_PI2 in
  let x2 := x * x in
  sgn * (x * ((lit N 100000023845050272773299000364796200809 (-38)) + x2 * ((lit N (-16666682566033897879935219201095767162) (-38)) + x2 * ((lit N 833336514411054166533213718024137805 (-38)) + x2 * ((lit N (-19841573060702552616502630386659459) (-38)) + x2 * ((lit N 275590070583955771833459696071741 (-38)) + x2 * ((lit N (-2505827337244739178237328638688) (-38)) + x2 * ((lit N 16075015762398257692300400842 (-38)) + x2 * ((lit N (-7678343942258447168543761182819578413904206358) (-58)) + x2 * ((lit N 28602165317742643202564599923006004284098087 (-58)) + x2 * ((lit N (-88973845232862045581109153976573338288322) (-58)) + ((lit N 321961975435848371348112389420493136549 (-58)) + ((lit N (-1397504723952181405528419625254973597) (-57)) + (lit N 193408508531534201885845596576140617 (-58)) * x) * x) * x2))))))))))).

(* src/cpp/Sl.cpp:163  branch n == 24 *)
Definition Sl_poly_24 (sgn x : car N) : car N :=
  let PI := Sl_PI in let PI2 := Sl_PI2 in
  let x2 := x * x in
  sgn * ((lit N 100000005960818905125947961244022532705 (-38)) + x2 * ((lit N (-50000011922525136386649500182398100405) (-38)) + x2 * ((lit N 4166670641508474469983804800148527986 (-38)) + x2 * ((lit N (-138889419068509027755535619670689634) (-38)) + x2 * ((lit N 2480196632587819077062828798332432 (-38)) + x2 * ((lit N (-27559007058395577183345969607174) (-38)) + x2 * ((lit N 208818944770394931519777386557 (-38)) + x2 * ((lit N (-1148215411599875549450028632) (-38)) + x2 * ((lit N 479896496391152948033985073926223650869004394 (-58)) + x2 * ((lit N (-1589009184319035733475811106833666904671266) (-58)) + x2 * ((lit N 4448692261643102279055457698828666914377 (-58)) + ((lit N (-14634635247084016879459654064567869849) (-58)) + ((lit N 60761074954442669805583461967607548 (-57)) - (lit N 8058687855480591745243566524005859 (-58)) * x) * x) * x2))))))))))).

(* src/cpp/Sl.cpp:164  branch n == 25 *)
Definition Sl_poly_25 (sgn x : car N) : car N :=
  let PI := Sl_PI in let PI2 := Sl_PI2 in
  let x2 := x * x in
  sgn * (x * ((lit N 100000005960818905125947961244022532705 (-38)) + x2 * ((lit N (-16666670640841712128883166727466033468) (-38)) + x2 * ((lit N 833334128301694893996760960029705597 (-38)) + x2 * ((lit N (-19841345581215575393647945667241376) (-38)) + x2 * ((lit N 275577403620868786340314310925826 (-38)) + x2 * ((lit N (-2505364278035961562122360873379) (-38)) + x2 * ((lit N 16062995751568840886136722043 (-38)) + x2 * ((lit N (-7654769410665836996333524210366101004611481858) (-58)) + x2 * ((lit N 2822920567006782047258735728977786181582112 (-57)) + x2 * ((lit N (-83632062332580828077674268780719310772978) (-58)) + x2 * ((lit N 211842488649671537097878938039460329257 (-58)) + ((lit N (-63628848900365290780259365498121174) (-57)) + ((lit N 25317114564351112418993109153169811 (-58)) - (lit N 322347514219223669809742660960235 (-58)) * x) * x) * x2)))))))))))).

End M.
