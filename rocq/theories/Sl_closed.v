(** * The closed formulas of Sl.cpp (n = 1..25) in exact arithmetic.
    The syntax trees below are printed by tools/gen_slpoly.py from Model_SlPoly.v;
    the lemmas pe_*_ok check that they are the model's polynomials. *)
From Coq Require Import Reals Lra Lia Psatz ZArith List Bool.
From Coquelicot Require Import Coquelicot.
From Interval Require Import Tactic.
From Bignums Require Import BigZ.
From Verif Require Import Num Outcome NumR Eval_R Polylog Fourier Clausen Chain Consts Cl_shape Proof_Cl Cl_full Red Bern Bern_num Model_SlPoly Model_Cl Series Proof_Series.
Import ListNotations.
Local Open Scope R_scope.

Inductive pexp :=
| Plit (m e : Z) | Padd (a b : pexp) | Psub (a b : pexp)
| PXl (a : pexp) | PXr (a : pexp) | PX2l (a : pexp) | PX2r (a : pexp).
Section Ev.
Variable N : num.
Variable x : car N.
Fixpoint pev (p : pexp) : car N :=
  match p with
  | Plit m e => lit N m e
  | Padd a b => add N (pev a) (pev b)
  | Psub a b => sub N (pev a) (pev b)
  | PXl a => mul N x (pev a)
  | PXr a => mul N (pev a) x
  | PX2l a => mul N (mul N x x) (pev a)
  | PX2r a => mul N (pev a) (mul N x x)
  end.
End Ev.
Definition pe_4 : pexp := (Padd (Plit 108232323371113819151600369654116790324 (-38)) (PX2r (Padd (Plit (-82246703342411321823620758332301259476) (-38)) (PXr (Psub (Plit 26179938779914943653855361527329190704 (-38)) (PXr (Plit 2083333333333333333333333333333333333 (-38)))))))).
Definition pe_5 : pexp := (PXl (Padd (Plit 108232323371113819151600369654116790324 (-38)) (PX2r (Padd (Plit (-27415567780803773941206919444100419825) (-38)) (PXr (Psub (Plit 6544984694978735913463840381832297676 (-38)) (PXr (Plit 416666666666666666666666666666666667 (-38))))))))).
Definition pe_6 : pexp := (Padd (Plit 101734306198444913971451792979092052962 (-38)) (PX2l (Padd (Plit (-54116161685556909575800184827058395148) (-38)) (PX2r (Padd (Plit 6853891945200943485301729861025104957 (-38)) (PXr (Padd (Plit (-1308996938995747182692768076366459535) (-38)) (PXr (Plit 69444444444444444444444444444444444 (-38)))))))))).
Definition pe_7 : pexp := (PXl (Padd (Plit 101734306198444913971451792979092052962 (-38)) (PX2l (Padd (Plit (-18038720561852303191933394942352798392) (-38)) (PX2r (Padd (Plit 137077838904018869706034597220502099 (-37)) (PXr (Padd (Plit (-218166156499291197115461346061076589) (-38)) (PXr (Plit 9920634920634920634920634920634921 (-38))))))))))).
Definition pe_8 : pexp := (Padd (Plit 100407735619794433937868523850865245599 (-38)) (PX2l (Padd (Plit (-50867153099222456985725896489546026481) (-38)) (PX2l (Padd (Plit 4509680140463075797983348735588199584 (-38)) (PX2r (Padd (Plit (-228463064840031449510057662034170166) (-38)) (PXr (Psub (Plit 31166593785613028159351620865868084 (-38)) (PXr (Plit 1240079365079365079365079365079365 (-38)))))))))))).
Definition pe_9 : pexp := (PXl (Padd (Plit 100407735619794433937868523850865245599 (-38)) (PX2l (Padd (Plit (-1695571769974081899524196549651534216) (-37)) (PX2l (Padd (Plit 901936028092615159596669747117639928 (-38)) (PX2r (Padd (Plit (-32637580691433064215722523147738596) (-38)) (PXr (Psub (Plit 3895824223201628519918952608233511 (-38)) (PXr (Plit 137786596119929453262786596119929 (-38))))))))))))).
Definition pe_10 : pexp := (Padd (Plit 100099457512781808533714595890031902742 (-38)) (PX2l (Padd (Plit (-50203867809897216968934261925432624194) (-38)) (PX2l (Padd (Plit 423892942493520474881049137412883547 (-37)) (PX2l (Padd (Plit (-15032267134876919326611162451960666) (-37)) (PX2r (Padd (Plit 4079697586429133026965315393467323 (-38)) (PXr (Padd (Plit (-432869358133514279990994734248167) (-38)) (PXr (Plit 13778659611992945326278659611993 (-38)))))))))))))).
Definition pe_11 : pexp := (PXl (Padd (Plit 100099457512781808533714595890031902742 (-38)) (PX2l (Padd (Plit (-16734622603299072322978087308477541398) (-38)) (PX2l (Padd (Plit 847785884987040949762098274825766981 (-38)) (PX2l (Padd (Plit (-21474667335538456180873089217086662) (-38)) (PX2r (Padd (Plit 453299731825459225218368377051925 (-38)) (PXr (Padd (Plit (-43286935813351427999099473424817) (-38)) (PXr (Plit 1252605419272085938752605419272 (-38))))))))))))))).
Definition pe_12 : pexp := (Padd (Plit 100024608655330804829863799804773972216 (-38)) (PX2l (Padd (Plit (-50049728756390904266857297945015937611) (-38)) (PX2l (Padd (Plit 4183655650824768080744521827119384652 (-38)) (PX2l (Padd (Plit (-141297647497840158293683045804294403) (-38)) (PX2l (Padd (Plit 2684333416942307022609136152135836 (-38)) (PX2r (Padd (Plit (-45329973182545922521836837705192) (-38)) (PXr (Psub (Plit 3935175983031947999918133947711 (-38)) (PXr (Plit 104383784939340494896050451606 (-38)))))))))))))))).
Definition pe_13 : pexp := (PXl (Padd (Plit 100024608655330804829863799804773972216 (-38)) (PX2l (Padd (Plit (-16683242918796968088952432648338636697) (-38)) (PX2l (Padd (Plit 836731130164953616148904365423876373 (-38)) (PX2l (Padd (Plit (-20185378213977165470526149400613446) (-38)) (PX2l (Padd (Plit 298259268549145224734348461348417 (-38)) (PX2r (Padd (Plit (-4120906652958720229257894336836) (-38)) (PXr (Psub (Plit 327931331919328999993177828976 (-38)) (PXr (Plit 8029521918410807299696188585 (-38))))))))))))))))).
Definition pe_14 : pexp := (Padd (Plit 100006124813505870482925854510513864395 (-38)) (PX2l (Padd (Plit (-50012304327665402414931899902386850299) (-38)) (PX2l (Padd (Plit 4170810729699242022238108162084659174 (-38)) (PX2l (Padd (Plit (-13945518836082560269148406090398079) (-37)) (PX2l (Padd (Plit 252317227674714568381576867507661 (-37)) (PX2l (Padd (Plit (-29825926854914522473434846134856) (-38)) (PX2r (Padd (Plit 34340888774656001910482452807 (-37)) (PXr (Padd (Plit (-25225487070717615384090602229) (-38)) (PXr (Plit 573537279886486235692584899 (-38)))))))))))))))))).
Definition pe_15 : pexp := (PXl (Padd (Plit 100006124813505870482925854510513864395 (-38)) (PX2l (Padd (Plit (-16670768109221800804977299967462192893) (-38)) (PX2l (Padd (Plit 834162145939848404447621632416931835 (-38)) (PX2l (Padd (Plit (-19922169765832228955926294414853602) (-38)) (PX2l (Padd (Plit 280352475194127298201752075008418 (-38)) (PX2l (Padd (Plit (-2711447895901320224857713284997) (-38)) (PX2r (Padd (Plit 26416068288196924546524963697 (-38)) (PXr (Padd (Plit (-1801820505051258241720757302) (-38)) (PXr (Plit 3823581865909908237950565992894035222077550119 (-58))))))))))))))))))).
Definition pe_16 : pexp := (Padd (Plit 100001528225940865187173257148771504874 (-38)) (PX2l (Padd (Plit (-50003062406752935241462927255256932198) (-38)) (PX2l (Padd (Plit 4167692027305450201244324991865684033 (-38)) (PX2l (Padd (Plit (-139027024323308067407936938736164479) (-38)) (PX2l (Padd (Plit 24902712207290286194907868018567 (-36)) (PX2l (Padd (Plit (-28035247519412729820175207500757) (-38)) (PX2l (Padd (Plit 225953991325110018738142773754 (-38)) (PX2r (Padd (Plit (-1886862020585494610466068836) (-38)) (PXr (Psub (Plit 12012136700341721611471715347102004543167177933 (-58)) (PXr (Plit 238973866619369264871910374555877201379846882 (-58)))))))))))))))))))).
Definition pe_17 : pexp := (PXl (Padd (Plit 100001528225940865187173257148771504874 (-38)) (PX2l (Padd (Plit (-16667687468917645080487642418418977399) (-38)) (PX2l (Padd (Plit 833538405461090040248864998373245454 (-38)) (PX2l (Padd (Plit (-19861003474758295343990991248027429) (-38)) (PX2l (Padd (Plit 276696802303225402165642977983148 (-38)) (PX2l (Padd (Plit (-2548658865401157256379564318122) (-38)) (PX2l (Padd (Plit 17381076255777693749087905673 (-38)) (PX2r (Padd (Plit (-12579080137236630736440458903649820484513744495) (-58)) (PXr (Psub (Plit 75075854377135760071698220919387528394794862 (-57)) (PXr (Plit 14057286271727603815994727915051600081167463 (-58))))))))))))))))))))).
Definition pe_18 : pexp := (Padd (Plit 100000381729326499983985646162931158806 (-38)) (PX2l (Padd (Plit (-50000764112970432593586628574372523391) (-38)) (PX2l (Padd (Plit 4166921867229411270121910604605414541 (-38)) (PX2l (Padd (Plit (-138923067576848340041477499728783703) (-38)) (PX2l (Padd (Plit 2482625434344786917998873906006869 (-38)) (PX2l (Padd (Plit (-2766968023032254021656429779943) (-37)) (PX2l (Padd (Plit 212388238783429771364963693188 (-38)) (PX2l (Padd (Plit (-1241505446841263839220564691) (-38)) (PX2r (Padd (Plit 786192508577289421027528681478113780282109019 (-58)) (PXr (Padd (Plit (-44162267280668094159822482893757369643996976) (-58)) (PXr (Plit 780960348429311323110818217502866671175969 (-58)))))))))))))))))))))).
Definition pe_19 : pexp := (PXl (Padd (Plit 100000381729326499983985646162931158806 (-38)) (PX2l (Padd (Plit (-16666921370990144197862209524782021767) (-38)) (PX2l (Padd (Plit 833384373445882254024382120921082908 (-38)) (PX2l (Padd (Plit (-19846152510978334291639642818358869) (-38)) (PX2l (Padd (Plit 275847270482754101999874878432976 (-38)) (PX2l (Padd (Plit (-2515425475483867292414936163492) (-38)) (PX2l (Padd (Plit 16337556829494597797304899476 (-38)) (PX2l (Padd (Plit (-8276702978941758928137097939516758220936903338) (-58)) (PX2r (Padd (Plit 46246618151605260060442863616359634134241695 (-58)) (PXr (Padd (Plit (-2453459293370449675545693494097631646888718) (-58)) (PXr (Plit 41103176233121648584779906184361403746102 (-58))))))))))))))))))))))).
Definition pe_20 : pexp := (Padd (Plit 100000095396203387279611315203997344306 (-38)) (PX2l (Padd (Plit (-50000190864663249991992823081465579403) (-38)) (PX2l (Padd (Plit 4166730342747536049465552381188890919 (-38)) (PX2l (Padd (Plit (-138897395574313709004063686821074073) (-38)) (PX2l (Padd (Plit 2480769063872291786454955352193002 (-38)) (PX2l (Padd (Plit (-27584727048275410199987487844475) (-38)) (PX2l (Padd (Plit 209618789623655607701244680291 (-38)) (PX2l (Padd (Plit (-1166968344963899842664635677) (-38)) (PX2l (Padd (Plit 517293936183859933008568621219797388808556372 (-58)) (PX2r (Padd (Plit (-2569256563978070003357936867575535229680093) (-58)) (PXr (Psub (Plit 12912943649318156187082597337355956036256 (-57)) (PXr (Plit 2055158811656082429238995309218070187304 (-58)))))))))))))))))))))))).
Definition pe_21 : pexp := (PXl (Padd (Plit 100000095396203387279611315203997344306 (-38)) (PX2l (Padd (Plit (-16666730288221083330664274360488526468) (-38)) (PX2l (Padd (Plit 83334606854950720989311047624836142 (-37)) (PX2l (Padd (Plit (-19842485082044815572009098117679263) (-38)) (PX2l (Padd (Plit 27564100709692130960610615025566 (-37)) (PX2l (Padd (Plit (-2507702458934128199998862531316) (-38)) (PX2l (Padd (Plit 16124522278742739053941898484 (-38)) (PX2l (Padd (Plit (-7779788966425998951097571179057633165274733065) (-58)) (PX2l (Padd (Plit 30429055069638819588739330659988081694620908 (-58)) (PX2r (Padd (Plit (-13522402968305631596620720355660711735158) (-57)) (PXr (Psub (Plit 6456471824659078093541298668677978018124 (-58)) (PXr (Plit 97864705316956306154237871867527151777 (-58))))))))))))))))))))))))).
Definition pe_22 : pexp := (Padd (Plit 100000023845050272773299000364796200809 (-38)) (PX2l (Padd (Plit (-50000047698101693639805657600710042819) (-38)) (PX2l (Padd (Plit 4166682572055270832666068589991566168 (-38)) (PX2l (Padd (Plit (-138891011424917868315518412712469919) (-38)) (PX2l (Padd (Plit 2480310635255601946501137264645673 (-38)) (PX2l (Padd (Plit (-27564100709692130960610615025566) (-38)) (PX2l (Padd (Plit 208975204911177349999905210943 (-38)) (PX2l (Padd (Plit (-1151751591338767075281564177) (-38)) (PX2l (Padd (Plit 486236810401624934443598198691102072829670529 (-58)) (PX2l (Padd (Plit (-1690503059424378866041073925554893427478879) (-58)) (PX2r (Padd (Plit 676120148415281579831036017783035586758 (-57)) (PXr (Padd (Plit (-307451039269479909216252317556094191341) (-58)) (PXr (Plit 4448395696225286643374448721251234172 (-58)))))))))))))))))))))))))).
Definition pe_23 : pexp := (PXl (Padd (Plit 100000023845050272773299000364796200809 (-38)) (PX2l (Padd (Plit (-16666682566033897879935219201095767162) (-38)) (PX2l (Padd (Plit 833336514411054166533213718024137805 (-38)) (PX2l (Padd (Plit (-19841573060702552616502630386659459) (-38)) (PX2l (Padd (Plit 275590070583955771833459696071741 (-38)) (PX2l (Padd (Plit (-2505827337244739178237328638688) (-38)) (PX2l (Padd (Plit 16075015762398257692300400842 (-38)) (PX2l (Padd (Plit (-7678343942258447168543761182819578413904206358) (-58)) (PX2l (Padd (Plit 28602165317742643202564599923006004284098087 (-58)) (PX2l (Padd (Plit (-88973845232862045581109153976573338288322) (-58)) (PX2r (Padd (Plit 321961975435848371348112389420493136549 (-58)) (PXr (Padd (Plit (-1397504723952181405528419625254973597) (-57)) (PXr (Plit 193408508531534201885845596576140617 (-58))))))))))))))))))))))))))).
Definition pe_24 : pexp := (Padd (Plit 100000005960818905125947961244022532705 (-38)) (PX2l (Padd (Plit (-50000011922525136386649500182398100405) (-38)) (PX2l (Padd (Plit 4166670641508474469983804800148527986 (-38)) (PX2l (Padd (Plit (-138889419068509027755535619670689634) (-38)) (PX2l (Padd (Plit 2480196632587819077062828798332432 (-38)) (PX2l (Padd (Plit (-27559007058395577183345969607174) (-38)) (PX2l (Padd (Plit 208818944770394931519777386557 (-38)) (PX2l (Padd (Plit (-1148215411599875549450028632) (-38)) (PX2l (Padd (Plit 479896496391152948033985073926223650869004394 (-58)) (PX2l (Padd (Plit (-1589009184319035733475811106833666904671266) (-58)) (PX2l (Padd (Plit 4448692261643102279055457698828666914377 (-58)) (PX2r (Padd (Plit (-14634635247084016879459654064567869849) (-58)) (PXr (Psub (Plit 60761074954442669805583461967607548 (-57)) (PXr (Plit 8058687855480591745243566524005859 (-58)))))))))))))))))))))))))))).
Definition pe_25 : pexp := (PXl (Padd (Plit 100000005960818905125947961244022532705 (-38)) (PX2l (Padd (Plit (-16666670640841712128883166727466033468) (-38)) (PX2l (Padd (Plit 833334128301694893996760960029705597 (-38)) (PX2l (Padd (Plit (-19841345581215575393647945667241376) (-38)) (PX2l (Padd (Plit 275577403620868786340314310925826 (-38)) (PX2l (Padd (Plit (-2505364278035961562122360873379) (-38)) (PX2l (Padd (Plit 16062995751568840886136722043 (-38)) (PX2l (Padd (Plit (-7654769410665836996333524210366101004611481858) (-58)) (PX2l (Padd (Plit 2822920567006782047258735728977786181582112 (-57)) (PX2l (Padd (Plit (-83632062332580828077674268780719310772978) (-58)) (PX2l (Padd (Plit 211842488649671537097878938039460329257 (-58)) (PX2r (Padd (Plit (-63628848900365290780259365498121174) (-57)) (PXr (Psub (Plit 25317114564351112418993109153169811 (-58)) (PXr (Plit 322347514219223669809742660960235 (-58))))))))))))))))))))))))))))).

Section Eq.
Variable N : num.
Local Notation pev := (pev N).
Lemma pe_4_ok s x : Sl_poly_4 N s x = mul N s (pev x pe_4). Proof. reflexivity. Qed.
Lemma pe_5_ok s x : Sl_poly_5 N s x = mul N s (pev x pe_5). Proof. reflexivity. Qed.
Lemma pe_6_ok s x : Sl_poly_6 N s x = mul N s (pev x pe_6). Proof. reflexivity. Qed.
Lemma pe_7_ok s x : Sl_poly_7 N s x = mul N s (pev x pe_7). Proof. reflexivity. Qed.
Lemma pe_8_ok s x : Sl_poly_8 N s x = mul N s (pev x pe_8). Proof. reflexivity. Qed.
Lemma pe_9_ok s x : Sl_poly_9 N s x = mul N s (pev x pe_9). Proof. reflexivity. Qed.
Lemma pe_10_ok s x : Sl_poly_10 N s x = mul N s (pev x pe_10). Proof. reflexivity. Qed.
Lemma pe_11_ok s x : Sl_poly_11 N s x = mul N s (pev x pe_11). Proof. reflexivity. Qed.
Lemma pe_12_ok s x : Sl_poly_12 N s x = mul N s (pev x pe_12). Proof. reflexivity. Qed.
Lemma pe_13_ok s x : Sl_poly_13 N s x = mul N s (pev x pe_13). Proof. reflexivity. Qed.
Lemma pe_14_ok s x : Sl_poly_14 N s x = mul N s (pev x pe_14). Proof. reflexivity. Qed.
Lemma pe_15_ok s x : Sl_poly_15 N s x = mul N s (pev x pe_15). Proof. reflexivity. Qed.
Lemma pe_16_ok s x : Sl_poly_16 N s x = mul N s (pev x pe_16). Proof. reflexivity. Qed.
Lemma pe_17_ok s x : Sl_poly_17 N s x = mul N s (pev x pe_17). Proof. reflexivity. Qed.
Lemma pe_18_ok s x : Sl_poly_18 N s x = mul N s (pev x pe_18). Proof. reflexivity. Qed.
Lemma pe_19_ok s x : Sl_poly_19 N s x = mul N s (pev x pe_19). Proof. reflexivity. Qed.
Lemma pe_20_ok s x : Sl_poly_20 N s x = mul N s (pev x pe_20). Proof. reflexivity. Qed.
Lemma pe_21_ok s x : Sl_poly_21 N s x = mul N s (pev x pe_21). Proof. reflexivity. Qed.
Lemma pe_22_ok s x : Sl_poly_22 N s x = mul N s (pev x pe_22). Proof. reflexivity. Qed.
Lemma pe_23_ok s x : Sl_poly_23 N s x = mul N s (pev x pe_23). Proof. reflexivity. Qed.
Lemma pe_24_ok s x : Sl_poly_24 N s x = mul N s (pev x pe_24). Proof. reflexivity. Qed.
Lemma pe_25_ok s x : Sl_poly_25 N s x = mul N s (pev x pe_25). Proof. reflexivity. Qed.
End Eq.

(** ** coefficient lists, scaled by 10^60 *)
Definition SS : Z := (10 ^ 60)%Z.
Lemma SS_pos : 0 < IZR SS. Proof. apply (IZR_lt 0). reflexivity. Qed.
Fixpoint addl (op : Z -> Z -> Z) (a b : list Z) : list Z :=
  match a, b with
  | [], _ => map (op 0%Z) b
  | _, [] => map (fun u => op u 0%Z) a
  | u :: a', v :: b' => op u v :: addl op a' b'
  end.
Fixpoint coefs (p : pexp) : list Z :=
  match p with
  | Plit m e => [(m * 10 ^ (60 + e))%Z]
  | Padd a b => addl Z.add (coefs a) (coefs b)
  | Psub a b => addl Z.sub (coefs a) (coefs b)
  | PXl a | PXr a => 0%Z :: coefs a
  | PX2l a | PX2r a => 0%Z :: 0%Z :: coefs a
  end.
Fixpoint pwf (p : pexp) : bool :=
  match p with
  | Plit m e => (0 <=? 60 + e)%Z
  | Padd a b | Psub a b => (pwf a && pwf b)%bool
  | PXl a | PXr a | PX2l a | PX2r a => pwf a
  end.
Fixpoint evl (l : list Z) (x : R) : R := match l with [] => 0 | c :: l' => IZR c + x * evl l' x end.
Lemma evl_map0 (f : Z -> Z) s l x : (forall u, IZR (f u) = s * IZR u) -> evl (map f l) x = s * evl l x.
Proof. intros H. induction l as [|c l IH]; cbn [map evl]; [ring|]. rewrite H, IH. ring. Qed.
Lemma addl_ok s a : forall b x, evl (addl (fun u v => (u + s * v)%Z) a b) x = evl a x + IZR s * evl b x.
Proof.
  induction a as [|u a IH]; intros b x.
  - cbn [addl evl]. rewrite (evl_map0 _ (IZR s)); [ring|]. intros v. rewrite Z.add_0_l, mult_IZR. reflexivity.
  - destruct b as [|v b].
    + cbn [addl]. rewrite (evl_map0 _ 1); [cbn [evl]; ring|]. intros v. rewrite Z.mul_0_r, Z.add_0_r. ring.
    + cbn [addl evl]. rewrite IH, plus_IZR, mult_IZR. ring.
Qed.
Lemma addl_ext f g : (forall u v, f u v = g u v) -> forall a b, addl f a b = addl g a b.
Proof.
  intros H. induction a as [|u a IH]; intros b; [cbn [addl]; apply map_ext; intros; apply H|].
  destruct b as [|v b]; [cbn [addl]; apply map_ext; intros; apply H|]. cbn [addl]. rewrite H, IH. reflexivity.
Qed.
Lemma coefs_ok ep p x : pwf p = true -> pev (NumR ep) (Some x) p = Some (evl (coefs p) x / IZR SS).
Proof.
  pose proof SS_pos as SP. induction p as [m e|a IHa b IHb|a IHa b IHb|a IH|a IH|a IH|a IH]; cbn [pwf]; intros H.
  - cbn [pev coefs evl]. cbn [NumR lit]. f_equal. apply Z.leb_le in H. rewrite (litR_scale 60) by lia. unfold SS. rewrite Rmult_0_r, Rplus_0_r. reflexivity.
  - apply andb_prop in H. destruct H as [H1 H2]. cbn [pev coefs]. rewrite (IHa H1), (IHb H2). cbn [NumR add lift2]. f_equal.
    rewrite (addl_ext Z.add (fun u v => (u + 1 * v)%Z)) by (intros; lia). rewrite addl_ok. field. lra.
  - apply andb_prop in H. destruct H as [H1 H2]. cbn [pev coefs]. rewrite (IHa H1), (IHb H2). cbn [NumR sub lift2]. f_equal.
    rewrite (addl_ext Z.sub (fun u v => (u + -1 * v)%Z)) by (intros; lia). rewrite addl_ok. field. lra.
  - cbn [pev coefs evl]. rewrite (IH H). cbn [NumR mul lift2]. f_equal. field. lra.
  - cbn [pev coefs evl]. rewrite (IH H). cbn [NumR mul lift2]. f_equal. field. lra.
  - cbn [pev coefs evl]. rewrite (IH H). cbn [NumR mul lift2]. f_equal. field. lra.
  - cbn [pev coefs evl]. rewrite (IH H). cbn [NumR mul lift2]. f_equal. field. lra.
Qed.
Lemma evl_sum l : forall x n, length l = S n -> evl l x = sum_f_R0 (fun i => IZR (nth i l 0%Z) * x ^ i) n.
Proof.
  induction l as [|c l IH]; intros x n H; [discriminate|]. cbn [length] in H. injection H as H. destruct l as [|c' l].
  - cbn [length] in H. subst n. cbn [evl sum_f_R0 nth pow]. ring.
  - destruct n as [|n]; [discriminate|]. change (evl (c :: c' :: l) x) with (IZR c + x * evl (c' :: l) x). rewrite (IH x n H).
    rewrite (decomp_sum (fun i => IZR (nth i (c :: c' :: l) 0%Z) * x ^ i)) by lia. cbn [Nat.pred nth pow]. rewrite Rmult_1_r. f_equal.
    rewrite scal_sum. apply sum_eq. intros i Hi. ring.
Qed.

(** ** the Taylor coefficients of the closed form, scaled by 10^60, with error 10^-48 *)
Definition aslZ : list Z := [(-500000000000000000000000000000000000000000000000000000000000); (1570796326794896619231321691639751442098584699687552910487472); (-1644934066848226436472415166646025189218949901206798437735558); (0); (1082323233711138191516003696541167902774750951918726907682976); (0); (-1017343061984449139714517929790920527901817490032853561842409); (0); (1004077356197944339378685238508652465258960790649850020329110); (0); (-1000994575127818085337145958900319017006019531564477517257789); (0); (1000246086553308048298637998047739670960416088458003404533041); (0); (-1000061248135058704829258545105135333747481696169154549482755); (0); (1000015282259408651871732571487636722023237388990471531153105); (0); (-1000003817293264999839856461644621939730454697218953331143174); (0); (1000000953962033872796113152038683449345943794187410595750056); (0); (-1000000238450502727732990003648186752994935041821779658269850); (0); (1000000059608189051259479612440207935801227503918837302795864); (0)]%Z.
Definition EE : Z := (10 ^ 12)%Z.
Definition D24 : Z := 223092870.
Lemma bl24_good : issome (gen 24 1 row2 [BigZ.of_Z D24]) = true. Proof. vm_compute. reflexivity. Qed.
Definition bl24 : list Z := Eval vm_compute in map BigZ.to_Z (unsome (gen 24 1 row2 [BigZ.of_Z D24])).
Lemma bl24_eq : map BigZ.to_Z (unsome (gen 24 1 row2 [BigZ.of_Z D24])) = bl24. Proof. vm_compute. reflexivity. Qed.
Lemma nth_toZ (l : list bigZ) L k : map BigZ.to_Z l = L -> length l = 25%nat -> (k <= 24)%nat -> nth k L 0%Z = BigZ.to_Z (nth k l BigZ.zero).
Proof. intros <- E Hk. rewrite (nth_indep (map BigZ.to_Z l) 0%Z (BigZ.to_Z BigZ.zero)) by (assert (M : length (map BigZ.to_Z l) = 25%nat) by (etransitivity; [apply map_length|exact E]); lia). apply map_nth. Qed.
Lemma bern_val k : (k <= 24)%nat -> bern k = IZR (nth k bl24 0%Z) / IZR D24.
Proof.
  intros Hk. destruct (gen_all bern D24 24 bern_is_bernoulli bl24_good) as [B L].
  specialize (B k ltac:(rewrite L; lia)). unfold nthZ in B.
  assert (E : nth k bl24 0%Z = BigZ.to_Z (nth k (unsome (gen 24 1 row2 [BigZ.of_Z D24])) BigZ.zero)).
  { exact (nth_toZ _ _ k bl24_eq L Hk). }
  rewrite E, B. field. unfold D24. apply not_0_IZR. discriminate.
Qed.
Fixpoint Zfact (n : nat) : Z := match n with O => 1%Z | S m => (Z.of_nat n * Zfact m)%Z end.
Lemma Zfact_ok n : IZR (Zfact n) = INR (fact n).
Proof. induction n as [|n IH]; [reflexivity|]. cbn [Zfact]. rewrite mult_IZR, IH, <- INR_IZR_INZ, <- mult_INR. reflexivity. Qed.
Lemma Zfact_pos n : (0 < Zfact n)%Z.
Proof. apply lt_IZR. rewrite Zfact_ok. apply lt_0_INR, lt_O_fact. Qed.
Lemma asl_val j : (j <= 24)%nat -> asl j = - (IZR (nth j bl24 0%Z) / IZR D24) * (2 * PI) ^ j / (2 * IZR (Zfact j)).
Proof.
  intros H. rewrite <- (bern_val j H), Zfact_ok. unfold bern. pose proof PI_RGT_0.
  assert ((2 * PI) ^ j <> 0) by (apply pow_nonzero; lra). pose proof (INR_fact_neq_0 j). field. split; assumption.
Qed.
Ltac asl_tac j := rewrite (asl_val j) by lia; unfold D24, SS, EE;
  let a := eval vm_compute in (nth j bl24 0%Z) in change (nth j bl24 0%Z) with a;
  let b := eval vm_compute in (Zfact j) in change (Zfact j) with b;
  let c := eval vm_compute in (nth j aslZ 0%Z) in change (nth j aslZ 0%Z) with c;
  let d := eval vm_compute in (10 ^ 60)%Z in change (10 ^ 60)%Z with d;
  let e := eval vm_compute in (10 ^ 12)%Z in change (10 ^ 12)%Z with e;
  interval with (i_prec 250).
Lemma asl_2 : Rabs (asl 2 - IZR (nth 2 aslZ 0%Z) / IZR SS) <= IZR EE / IZR SS. Proof. asl_tac 2%nat. Qed.
Lemma asl_4 : Rabs (asl 4 - IZR (nth 4 aslZ 0%Z) / IZR SS) <= IZR EE / IZR SS. Proof. asl_tac 4%nat. Qed.
Lemma asl_6 : Rabs (asl 6 - IZR (nth 6 aslZ 0%Z) / IZR SS) <= IZR EE / IZR SS. Proof. asl_tac 6%nat. Qed.
Lemma asl_8 : Rabs (asl 8 - IZR (nth 8 aslZ 0%Z) / IZR SS) <= IZR EE / IZR SS. Proof. asl_tac 8%nat. Qed.
Lemma asl_10 : Rabs (asl 10 - IZR (nth 10 aslZ 0%Z) / IZR SS) <= IZR EE / IZR SS. Proof. asl_tac 10%nat. Qed.
Lemma asl_12 : Rabs (asl 12 - IZR (nth 12 aslZ 0%Z) / IZR SS) <= IZR EE / IZR SS. Proof. asl_tac 12%nat. Qed.
Lemma asl_14 : Rabs (asl 14 - IZR (nth 14 aslZ 0%Z) / IZR SS) <= IZR EE / IZR SS. Proof. asl_tac 14%nat. Qed.
Lemma asl_16 : Rabs (asl 16 - IZR (nth 16 aslZ 0%Z) / IZR SS) <= IZR EE / IZR SS. Proof. asl_tac 16%nat. Qed.
Lemma asl_18 : Rabs (asl 18 - IZR (nth 18 aslZ 0%Z) / IZR SS) <= IZR EE / IZR SS. Proof. asl_tac 18%nat. Qed.
Lemma asl_20 : Rabs (asl 20 - IZR (nth 20 aslZ 0%Z) / IZR SS) <= IZR EE / IZR SS. Proof. asl_tac 20%nat. Qed.
Lemma asl_22 : Rabs (asl 22 - IZR (nth 22 aslZ 0%Z) / IZR SS) <= IZR EE / IZR SS. Proof. asl_tac 22%nat. Qed.
Lemma asl_24 : Rabs (asl 24 - IZR (nth 24 aslZ 0%Z) / IZR SS) <= IZR EE / IZR SS. Proof. asl_tac 24%nat. Qed.
Theorem aslZ_ok j : (j <= 25)%nat -> Rabs (asl j - IZR (nth j aslZ 0%Z) / IZR SS) <= IZR EE / IZR SS.
Proof.
  intros H. assert (Z0 : 0 <= IZR EE / IZR SS) by (unfold EE, SS; lra).
  assert (OD : forall m, (1 <= m)%nat -> nth (2 * m + 1) aslZ 0%Z = 0%Z -> Rabs (asl (2 * m + 1) - IZR (nth (2 * m + 1) aslZ 0%Z) / IZR SS) <= IZR EE / IZR SS).
  { intros m Hm ->. rewrite asl_odd by exact Hm. replace (0 - 0 / IZR SS) with 0 by (field; unfold SS; lra). rewrite Rabs_R0. exact Z0. }
  destruct (Nat.eq_dec j 0) as [-> |]; [unfold asl, Dsl; cbn [nth aslZ]; replace (- / 2 - _) with 0 by (unfold SS; lra); rewrite Rabs_R0; exact Z0|].
  destruct (Nat.eq_dec j 1) as [-> |]; [unfold asl, Dsl; cbn [nth aslZ]; unfold SS, EE; pose proof PI_dec as P; interval with (i_prec 250)|].
  destruct (Nat.eq_dec j 2) as [-> |]; [exact asl_2|]. destruct (Nat.eq_dec j 3) as [-> |]; [exact (OD 1%nat ltac:(lia) eq_refl)|].
  destruct (Nat.eq_dec j 4) as [-> |]; [exact asl_4|]. destruct (Nat.eq_dec j 5) as [-> |]; [exact (OD 2%nat ltac:(lia) eq_refl)|].
  destruct (Nat.eq_dec j 6) as [-> |]; [exact asl_6|]. destruct (Nat.eq_dec j 7) as [-> |]; [exact (OD 3%nat ltac:(lia) eq_refl)|].
  destruct (Nat.eq_dec j 8) as [-> |]; [exact asl_8|]. destruct (Nat.eq_dec j 9) as [-> |]; [exact (OD 4%nat ltac:(lia) eq_refl)|].
  destruct (Nat.eq_dec j 10) as [-> |]; [exact asl_10|]. destruct (Nat.eq_dec j 11) as [-> |]; [exact (OD 5%nat ltac:(lia) eq_refl)|].
  destruct (Nat.eq_dec j 12) as [-> |]; [exact asl_12|]. destruct (Nat.eq_dec j 13) as [-> |]; [exact (OD 6%nat ltac:(lia) eq_refl)|].
  destruct (Nat.eq_dec j 14) as [-> |]; [exact asl_14|]. destruct (Nat.eq_dec j 15) as [-> |]; [exact (OD 7%nat ltac:(lia) eq_refl)|].
  destruct (Nat.eq_dec j 16) as [-> |]; [exact asl_16|]. destruct (Nat.eq_dec j 17) as [-> |]; [exact (OD 8%nat ltac:(lia) eq_refl)|].
  destruct (Nat.eq_dec j 18) as [-> |]; [exact asl_18|]. destruct (Nat.eq_dec j 19) as [-> |]; [exact (OD 9%nat ltac:(lia) eq_refl)|].
  destruct (Nat.eq_dec j 20) as [-> |]; [exact asl_20|]. destruct (Nat.eq_dec j 21) as [-> |]; [exact (OD 10%nat ltac:(lia) eq_refl)|].
  destruct (Nat.eq_dec j 22) as [-> |]; [exact asl_22|]. destruct (Nat.eq_dec j 23) as [-> |]; [exact (OD 11%nat ltac:(lia) eq_refl)|].
  destruct (Nat.eq_dec j 24) as [-> |]; [exact asl_24|]. destruct (Nat.eq_dec j 25) as [-> |]; [exact (OD 12%nat ltac:(lia) eq_refl)|].
  lia.
Qed.

(** ** comparison *)
Fixpoint zsum (f : nat -> Z) (n : nat) : Z := match n with O => f O | S m => (zsum f m + f n)%Z end.
Lemma zsum_ok f n : IZR (zsum f n) = sum_f_R0 (fun i => IZR (f i)) n.
Proof. induction n as [|n IH]; [reflexivity|]. cbn [zsum sum_f_R0]. rewrite plus_IZR, IH. reflexivity. Qed.
Definition dsgZ (n : nat) : Z := if Nat.even (Nat.div2 n) then 1%Z else (-1)%Z.
Lemma dsgZ_ok n : IZR (dsgZ n) = dsg n.
Proof.
  unfold dsgZ, dsg. generalize (Nat.div2 n). intros m. induction m as [m IH] using (well_founded_induction Wf_nat.lt_wf). destruct m as [|[|m]]; [reflexivity|cbn; ring|].
  cbn [Nat.even pow]. rewrite (IH m) by lia. ring.
Qed.
Definition Terr (n : nat) (l : list Z) (i : nat) : Z := ((Z.abs (nth i l 0 * Zfact i - dsgZ n * nth (n - i) aslZ 0) + EE) / Zfact i + 1)%Z.
Definition slcheck (n : nat) (p : pexp) (tol : Z) : bool :=
  (pwf p && Nat.eqb (length (coefs p)) (S n) && (zsum (fun i => Terr n (coefs p) i * 4 ^ Z.of_nat i)%Z n <=? tol)%Z)%bool.
Lemma Terr_ok n l i : (n <= 25)%nat -> (i <= n)%nat -> Rabs (IZR (nth i l 0%Z) / IZR SS - dsg n * (asl (n - i) / INR (fact i))) <= IZR (Terr n l i) / IZR SS.
Proof.
  intros Hn Hi. pose proof (aslZ_ok (n - i) ltac:(lia)) as A. rewrite <- Zfact_ok, <- dsgZ_ok. pose proof SS_pos as SP.
  pose proof (IZR_lt 0 _ (Zfact_pos i)) as FP. set (f := Zfact i) in *. set (c := nth i l 0%Z). set (a := nth (n - i) aslZ 0%Z) in *. set (s := dsgZ n).
  assert (AS : Rabs (IZR s) = 1). { unfold s, dsgZ. destruct (Nat.even _); [apply Rabs_R1|]. rewrite Rabs_left; lra. }
  assert (T : (Z.abs (c * f - s * a) + EE <= Terr n l i * f)%Z).
  { unfold Terr. fold f c a s. pose proof (Z.mul_succ_div_gt (Z.abs (c * f - s * a) + EE) f (Zfact_pos i)) as M. unfold Z.succ in M. lia. }
  apply IZR_le in T. rewrite plus_IZR, abs_IZR, minus_IZR, !mult_IZR in T.
  set (d := asl (n - i) - IZR a / IZR SS) in *.
  replace (IZR c / IZR SS - IZR s * (asl (n - i) / IZR f)) with (((IZR c * IZR f - IZR s * IZR a) / IZR SS - IZR s * d) / IZR f) by (unfold d; field; lra).
  unfold Rdiv at 1. rewrite Rabs_mult, (Rabs_pos_eq (/ IZR f)) by (left; apply Rinv_0_lt_compat; exact FP).
  apply (Rmult_le_reg_r (IZR f)); [exact FP|]. rewrite Rmult_assoc, Rinv_l, Rmult_1_r by lra.
  eapply Rle_trans; [apply Rabs_triang|]. rewrite Rabs_Ropp, Rabs_mult, AS, Rmult_1_l.
  unfold Rdiv at 1. rewrite Rabs_mult, (Rabs_pos_eq (/ IZR SS)) by (left; apply Rinv_0_lt_compat; exact SP).
  apply (Rmult_le_reg_r (IZR SS)); [exact SP|]. rewrite Rmult_plus_distr_r, Rmult_assoc, Rinv_l, Rmult_1_r by lra.
  replace (IZR (Terr n l i) / IZR SS * IZR f * IZR SS) with (IZR (Terr n l i) * IZR f) by (field; lra).
  eapply Rle_trans; [|exact T]. apply Rplus_le_compat_l. apply (Rmult_le_compat_r (IZR SS)) in A; [|lra]. replace (IZR EE / IZR SS * IZR SS) with (IZR EE) in A by (field; lra). exact A.
Qed.
Theorem slcheck_ok ep n p tol x : slcheck n p tol = true -> (2 <= n <= 25)%nat -> 0 <= x <= 4 ->
  exists v, pev (NumR ep) (Some x) p = Some v /\ Rabs (v - Slspec n x) <= IZR tol / IZR SS.
Proof.
  intros H Hn Hx. unfold slcheck in H. apply andb_prop in H. destruct H as [H T]. apply andb_prop in H. destruct H as [W L]. apply Nat.eqb_eq in L. apply Z.leb_le, IZR_le in T.
  eexists. split; [apply coefs_ok; exact W|]. pose proof SS_pos as SP. pose proof PI_dec20.
  rewrite (Slspec_closed n x) by (lia || lra). rewrite tp_sum, (evl_sum _ x n L).
  replace (sum_f_R0 (fun i => IZR (nth i (coefs p) 0%Z) * x ^ i) n / IZR SS - dsg n * sum_f_R0 (fun i => asl (n - i) * x ^ i / INR (fact i)) n)
    with (sum_f_R0 (fun i => (IZR (nth i (coefs p) 0%Z) / IZR SS - dsg n * (asl (n - i) / INR (fact i))) * x ^ i) n).
  2:{ set (A := sum_f_R0 (fun i => IZR (nth i (coefs p) 0%Z) * x ^ i) n). replace (A / IZR SS) with (/ IZR SS * A) by (field; lra). unfold A. rewrite !scal_sum, <- minus_sum. apply sum_eq. intros i Hi. field. split; [apply INR_fact_neq_0|lra]. }
  eapply Rle_trans; [apply Rsum_abs|]. rewrite zsum_ok in T.
  apply Rle_trans with (sum_f_R0 (fun i => IZR (Terr n (coefs p) i * 4 ^ Z.of_nat i)) n / IZR SS).
  - set (A := sum_f_R0 (fun i => IZR (Terr n (coefs p) i * 4 ^ Z.of_nat i)) n). replace (A / IZR SS) with (/ IZR SS * A) by (field; lra). unfold A. rewrite scal_sum. apply sum_Rle. intros i Hi. rewrite Rabs_mult.
    pose proof (Terr_ok n (coefs p) i ltac:(lia) Hi) as B. rewrite mult_IZR.
    assert (P4 : IZR (4 ^ Z.of_nat i) = 4 ^ i) by (rewrite <- pow_IZR; reflexivity). rewrite P4.
    assert (X : Rabs (x ^ i) <= 4 ^ i). { rewrite Rabs_pos_eq by (apply pow_le; lra). apply pow_incr. lra. }
    apply Rle_trans with (IZR (Terr n (coefs p) i) / IZR SS * 4 ^ i); [apply Rmult_le_compat; [apply Rabs_pos|apply Rabs_pos|exact B|exact X]|]. unfold Rdiv. right. ring.
  - apply Rmult_le_compat_r; [left; apply Rinv_0_lt_compat; exact SP|exact T].
Qed.
Definition pes : list pexp := [pe_4; pe_5; pe_6; pe_7; pe_8; pe_9; pe_10; pe_11; pe_12; pe_13; pe_14; pe_15; pe_16; pe_17; pe_18; pe_19; pe_20; pe_21; pe_22; pe_23; pe_24; pe_25].
Definition TOL : Z := (10 ^ 33)%Z.
Lemma pes_check : forallb (fun i => slcheck (i + 4) (nth i pes (Plit 0 0)) TOL) (seq 0 22) = true.
Proof. vm_compute. reflexivity. Qed.
Lemma Sl_poly_pes N i : (i < 22)%nat -> exists f, Sl_poly N (Z.of_nat (i + 4)) = Some f /\ forall s x, f s x = mul N s (pev N x (nth i pes (Plit 0 0))).
Proof.
  intros H. do 22 (destruct i as [|i]; [eexists; split; [reflexivity|intros s x; reflexivity]|]). lia.
Qed.
Definition sltol (n : Z) : R := if (n <=? 3)%Z then 1 / 10 ^ 17 else 1 / 10 ^ 27.
Lemma sinser_1_val x : 0 < x < 2 * PI -> sinser 1 x = (PI - x) / 2.
Proof. intros H. unfold sinser. apply is_series_unique. apply sinser_1. exact H. Qed.
Lemma SlPI_R ep : Sl_PI (NumR ep) = Some Pd.
Proof. exact (PId_R ep). Qed.
(** the branch taken for 1 <= n <= 25 *)
Theorem Sl_poly_accuracy ep n r : (1 <= n <= 25)%Z -> 0 <= r <= 4 -> (n = 1%Z -> 0 < r) ->
  exists f v, Sl_poly (NumR ep) n = Some f /\ (forall s, f (Some s) (Some r) = Some (s * v)) /\ Rabs (v - Slspec (Z.to_nat n) r) <= sltol n.
Proof.
  intros Hn Hr H1. pose proof Pd_err as PE. pose proof PI_dec20 as PD. unfold sltol.
  destruct (Z.leb_spec n 3) as [L|L].
  - assert (C : n = 1%Z \/ n = 2%Z \/ n = 3%Z) by lia. destruct C as [-> |[-> | ->] ].
    + exists (Sl_poly_1 (NumR ep)). exists (Pd / 2 - 1 / 2 * r). split; [reflexivity|]. split.
      * intros s. unfold Sl_poly_1. rewrite SlPI_R. cbn [NumR mul sub div lit car lift2 odiv]. rewrite !litR_int. destruct (Req_EM_T 2 0); [lra|]. reflexivity.
      * change (Slspec (Z.to_nat 1) r) with (sinser 1 r). rewrite sinser_1_val by (specialize (H1 eq_refl); lra).
        replace (Pd / 2 - 1 / 2 * r - (PI - r) / 2) with ((Pd - PI) / 2) by field. apply Rabs_le. lra.
    + exists (Sl_poly_2 (NumR ep)). exists (Pd * Pd / 6 + (-1 / 2 * Pd + 1 / 4 * r) * r). split; [reflexivity|]. split.
      * intros s. unfold Sl_poly_2, Sl_PI2. rewrite SlPI_R. cbn [NumR mul sub add div lit car lift2 odiv]. rewrite !litR_int. destruct (Req_EM_T 2 0); [lra|]. destruct (Req_EM_T 6 0); [lra|]. destruct (Req_EM_T 4 0); [lra|]. reflexivity.
      * change (Slspec (Z.to_nat 2) r) with (cosser 2 r). rewrite cosser_2 by lra.
        replace (Pd * Pd / 6 + (-1 / 2 * Pd + 1 / 4 * r) * r - ((PI - r) ^ 2 / 4 - PI ^ 2 / 12)) with ((Pd - PI) * ((Pd + PI) / 6 - r / 2)) by field.
        rewrite Rabs_mult, (Rabs_pos_eq (Pd - PI)) by lra. apply Rle_trans with (16 / 10 ^ 19 * 2); [|lra]. apply Rmult_le_compat; [lra|apply Rabs_pos|lra|apply Rabs_le; lra].
    + exists (Sl_poly_3 (NumR ep)). exists (r * (Pd * Pd / 6 + (-1 / 4 * Pd + 1 / 12 * r) * r)). split; [reflexivity|]. split.
      * intros s. unfold Sl_poly_3, Sl_PI2. rewrite SlPI_R. cbn [NumR mul sub add div lit car lift2 odiv]. rewrite !litR_int. destruct (Req_EM_T 12 0); [lra|]. destruct (Req_EM_T 6 0); [lra|]. destruct (Req_EM_T 4 0); [lra|]. reflexivity.
      * change (Z.to_nat 3) with 3%nat. rewrite (Slspec_closed 3 r) by (lia || lra). rewrite tp_sum. cbn [sum_f_R0 Nat.sub fact]. unfold dsg. cbn [Nat.div2].
        replace (asl 3) with 0 by (symmetry; apply (asl_odd 1); lia). replace (asl 2) with (- PI ^ 2 / 6).
        2:{ unfold asl, Dsl, dsg, Slspec. cbn [Nat.div2 Nat.even]. rewrite cosser_2 by lra. field. }
        unfold asl, Dsl. simpl INR.
        match goal with |- Rabs ?t <= _ => replace t with ((Pd - PI) * ((Pd + PI) / 6 * r - r * r / 4)) by field end.
        rewrite Rabs_mult, (Rabs_pos_eq (Pd - PI)) by lra. apply Rle_trans with (16 / 10 ^ 19 * 6); [|lra]. apply Rmult_le_compat; [lra|apply Rabs_pos|lra|apply Rabs_le; nra].
  - set (i := Z.to_nat (n - 4)). assert (Hi : (i < 22)%nat) by (unfold i; lia). assert (En : n = Z.of_nat (i + 4)) by (unfold i; lia).
    destruct (Sl_poly_pes (NumR ep) i Hi) as (f & E & F). pose proof pes_check as PC. rewrite forallb_forall in PC. specialize (PC i ltac:(apply in_seq; lia)).
    destruct (slcheck_ok ep (i + 4) (nth i pes (Plit 0 0)) TOL r PC ltac:(lia) Hr) as (v & V & B).
    exists f, v. split; [rewrite En; exact E|]. split; [intros s; rewrite F, V; reflexivity|]. rewrite En, Nat2Z.id. eapply Rle_trans; [exact B|]. unfold TOL, SS. lra.
Qed.
Theorem Sl_small_accuracy n x : (1 <= n <= 25)%Z -> ~ in_gap Pd Sd x ->
  exists v x', Model_Cl.Sl RD n (Some x) = Val (Some v) /\ Rabs (v - Slspec (Z.to_nat n) x') <= sltol n /\
  Rabs (x' - x) <= 6 / 10 ^ 19 * Rabs x + 1 / 10 ^ 19 /\ (Rabs x <= Pd -> x' = x).
Proof.
  intros Hn NG. pose proof (redc_rng Pd Sd HPd HSPd x NG) as RR. pose proof Pd_err as PE. pose proof PI_dec20 as PD. set (m := Z.to_nat n).
  assert (TP : 0 <= sltol n) by (unfold sltol; destruct (n <=? 3)%Z; lra).
  assert (G : exists v, Model_Cl.Sl RD n (Some x) = Val (Some v) /\ Rabs (v - (if Nat.odd m then flipsg x else 1) * Slspec m (redc Pd Sd x)) <= sltol n).
  { unfold Model_Cl.Sl. rewrite zltb_false by lia. unfold Sl_range_reduce. rewrite is_even_nat by lia. fold m. rewrite <- Nat.negb_even.
    unfold RD. rewrite flip_R, noflip_R. fold RD. destruct (Nat.even m) eqn:E; cbv beta iota; cbn [andb negb].
    - assert (N1 : n = 1%Z -> 0 < redc Pd Sd x) by (intros K; unfold m in E; rewrite K in E; discriminate).
      destruct (Sl_poly_accuracy eps_d n (redc Pd Sd x) Hn ltac:(lra) N1) as (f & v & PF & V & B). unfold RD. rewrite PF. exists (1 * v). cbn [NumR lit]. rewrite litR_int, V. split; [reflexivity|]. rewrite !Rmult_1_l. exact B.
    - replace (eqb RD (Some (redc Pd Sd x)) (lit RD 0 0)) with (Reqb (redc Pd Sd x) 0) by (unfold RD; cbn [NumR eqb lit car ocmp]; rewrite litR_int; reflexivity). unfold Reqb.
      destruct (Req_EM_T (redc Pd Sd x) 0) as [Z|Z].
      + exists (redc Pd Sd x). split; [reflexivity|]. rewrite Z. unfold Slspec. rewrite E, Fourier.sinser_0, Rmult_0_r, Rminus_0_r, Rabs_R0. exact TP.
      + assert (N1 : n = 1%Z -> 0 < redc Pd Sd x) by (intros; lra).
        destruct (Sl_poly_accuracy eps_d n (redc Pd Sd x) Hn ltac:(lra) N1) as (f & v & PF & V & B). unfold RD. rewrite PF. exists (flipsg x * v). rewrite V. split; [reflexivity|]. rewrite <- Rmult_minus_distr_l, Rabs_mult, flipsg_abs, Rmult_1_l. exact B. }
  destruct G as (v & E & B). exists v, (redx Pd Sd x). split; [exact E|]. split; [rewrite Sl_redx; exact B|]. split; [apply redx_d|apply (redx_small Pd Sd HPd)].
Qed.
