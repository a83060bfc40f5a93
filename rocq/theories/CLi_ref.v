(** GENERATED by tools/gen_cli_ref.py.  Reference polynomials for the complex polylogarithm:
    candidates for the Taylor coefficients (scaled by 10^70); the residual checks below, evaluated in Coq, are what
    makes them trustworthy. Nothing here mentions the code. *)
From Coq Require Import ZArith Reals List Bool Lra Lia Psatz.
From Coquelicot Require Import Coquelicot.
From Interval Require Import Tactic.
From Bignums Require Import BigZ.
From Verif Require Import NumR Spec Cplx Clog_series Chain Polylog Ccalc CLi CLi_disc CLi_inv Unity Rest Cpoly CLi_unity CLi_exp CLi_T Cheb_big.
Import ListNotations.
Local Open Scope R_scope.
Definition DD : Z := (10 ^ 70)%Z.
Definition bz : list Z := [-5000000000000000000000000000000000000000000000000000000000000000000000; -833333333333333333333333333333333333333333333333333333333333333333333; 0; 13888888888888888888888888888888888888888888888888888888888888888889; 0; -330687830687830687830687830687830687830687830687830687830687830688; 0; 8267195767195767195767195767195767195767195767195767195767195767; 0; -208767569878680989792100903212014323125434236545347656458767570; 0; 5284190138687493184847682202179556676911174265671620168974666; 0; -133825365306846788328269809751291232772714254195735677217159; 0; 3389680296322582866830195391249442499572181074411596249961; 0; -85860620562778445641359054504256271339539561274865749699; 0; 2174868698558061873041516423865917899851791600154166084; 0; -55090028283602295152026526089022548778615827044688408; 0; 1395446468581252334070768626406354976391763666911100; 0; -35347070396294674716932299778037992147245945647149; 0; 895351742703754685040261131811274105162713924278; 0; -22679524523376830603109507388681660632203543297; 0; 574479066887220244526388198760701839962477669; 0; -14551724756148649018662648672713293357208890; 0; 368599494066531017818178247990866037444630; 0; -9336734257095044672032555152785623295444; 0; 236502241570062993455963519636983824007; 0; -5990671762482134304659912396819657826; 0; 151745488446829026171081313586471893; 0; -3843758125454188232229445290990232; 0; 97363530726466910352676212792505; 0; -2466247044200680957106400280289; 0; 62470767418207436931487567947; 0; -1582403024464491429751081707; 0; 40082736859489359685300122; 0; -1015307585556955631163071; 0; 25718041582418717499248; 0; -651445603523381493156; 0; 16501309906896524555; 0; -417983062853947589; 0; 10587634667702909; 0; -268187919126077; 0; 6793279351107; 0; -172075776167; 0; 4358730329; 0; -110407929; 0; 2796666; 0; -70840; 0; 1794; 0; -45; 0; 1]%Z.
Definition qz (n : nat) : list Z := match n with
  | 1%nat => [0; DD]%Z
  | 2%nat => [0; 10000000000000000000000000000000000000000000000000000000000000000000000; -2500000000000000000000000000000000000000000000000000000000000000000000; 277777777777777777777777777777777777777777777777777777777777777777778; 0; -2777777777777777777777777777777777777777777777777777777777777777778; 0; 47241118669690098261526832955404383975812547241118669690098261527; 0; -918577307466196355085243974132863021751910640799529688418577307; 0; 18978869988970999072009173019274029375039476049577059678069779; 0; -406476164514422552680590938629196667454705712743970782228820; 0; 8921691020456452555217987316752748851514283613049045147811; 0; -199392958607210756872364434779378970563069474965388014704; 0; 4518980029619918191650476552855593228396819014466618405; 0; -103565176121812470144834115422186566659609123816865052; 0; 2395218621026186745740283743000980381678949001942974; 0; -55817858743250093362830745056254199055670546676444; 0; 1309150755418321285812307399186592301749849838783; 0; -30874198024267402932422797648664624315955652561; 0; 731597565270220342035790560925214859103340106; 0; -17408456572340007409890551477597025453408414; 0; 415763564461389971961789962077522667348825; 0; -9962148488284622103194006702455838849855; 0; 239403442489616530052116798789374956293; 0; -5768347355367390084291793161877654244; 0; 139317947964700797782788660391154833; 0; -3372121965485089470468473635254931; 0; 81782087775621026217647772148728; 0; -1987010831152385925564820669235; 0; 48357785180405508962870593731; 0; -1178693724871838432669576754; 0; 28770964081172571450019667; 0; -703205909815602801496493; 0; 17208603145033146290900]%Z
  | 3%nat => [0; 10000000000000000000000000000000000000000000000000000000000000000000000; -3750000000000000000000000000000000000000000000000000000000000000000000; 787037037037037037037037037037037037037037037037037037037037037037037; -86805555555555555555555555555555555555555555555555555555555555555556; 1296296296296296296296296296296296296296296296296296296296296296296; 810185185185185185185185185185185185185185185185185185185185185185; -34193571608537594932152755282006982687254796098333513299499694058; -13286564625850340136054421768707482993197278911564625850340136054; 866087175610985134794658604182413706223230032753842277651801461; 252608759553203997648442092886537330981775426219870664315108760; -21446944683640647609338850757364903151776211376543704148759027; -5140110622012978915335817692720049622406524763427120329477232; 524958211460082943639408880855807284418694715086696460362816; 108877544066363183753729715704249107353939030199277888097005; -12779396094493695305581831754072212026955695985079300176901; -2369824177308745209979777881012448913683481584716152617387; 310435788796546229428475327046556211383830587433171700594; 52617586299125060841318392511225006120810000338088503880; -7538479549949265365992501432267710275943334629411362875; -1186232257775228525308250095124593222454164991297487331; 183169799654913833820892731212815349308594959302163668; 27068171031837350151490734712616943558761475543044275; -4455433897829638826432630992176322115813521061460631; -623754849225569465036532224739838641062226302589316; 108515215348745349131365609968642832898904272539986; 14491174866036081930734904966527532447145238079461; -2646633975445899033474089118614437414019065073972; -338976534885101047219258165860814078131657547542; 64640477336033108890325309821953423357842022003; 7975834489602412424209222725905027948288543578; -1580917879028748335592111762938267696995868479; -188614997296228681931102253988531955862579871; 38715536638418473303997127188831331916192258; 4480117500234560730486538983205116844627165; -949303387191183612641753676027699150180513; -106828138090773812240182143033807907582684; 23304478936103051860078519901928137054763; 2556077572651975408056356982866958652265; -572742160613725968447274458033057100252; -61347132137964235825854929689777332550; 14090808604068944840126868848942170015; 1476422239766653414431828011671066265; -347010516489959160555004020312910903; -35621066240974635796735737031829361; 8553696568236921057547312891244681; 861357241183691332130534026396640; -211030731665291450122766697484704; -20871470317736616065962191850457; 5210699833995917687268595888657; 506687761943858411019029270655; -128760990549822459561727466194; -12321935646930249879962218595; 3184134335973117115132369055; 300130346610884786096420007; -78795170282742666304825189; -7321182824226948985049648; 1951158653833909806420779; 178832537410002436587470; -48345401078116824047375; -4373853299362591348937]%Z
  | 4%nat => [0; 10000000000000000000000000000000000000000000000000000000000000000000000; -4375000000000000000000000000000000000000000000000000000000000000000000; 1165123456790123456790123456790123456790123456790123456790123456790123; -198206018518518518518518518518518518518518518518518518518518518518519; 19279320987654320987654320987654320987654320987654320987654320987654; -310570987654320987654320987654320987654320987654320987654320987654; -156240091148578352983924736435264455996558361313787293703069537213; 8485123546773206637152215383507900514703235791671165820825684771; 2290961660318971144535938354700427430754129334796169431258034601; -218326142185269169396153523137650121777105904090031074158058285; -38828248791720155722806620380776514554844319006432637259373163; 5446292103220332118257985880823200630217406931153341869449555; 696080521068272540787723341341208119662783980059434671301345; -133757376864452151995780722036345204579571139421739042092718; -12784852685266571604146246361574169968523810375480677360382; 3260562858024892242878841817821709182552924349047097550798; 236475711686182573623095048124390137142892788608802103322; -79231351220311617024299900711372495377503873128812691317; -4345291570998418725049737162647538441990630795259835651; 1923627006253592011612687552675260420866346900433769036; 78124143331959546707222938968737073236082932141270096; -46718038448036555203176282428722201213277518760699360; -1343534432981284785626022267589372433761197459168521; 1135682685134734324476469837593848457105488588311077; 21152756202432586847505983414191794566351654388070; -27642026334746517388281729253731028011725981529752; -270681766082400642561090595581950049264449455946; 673720448286285721432671612656264302971801593395; 1328726545668382297581800904501253977613681400; -16443773056367826467816763114888662994720020477; 82836058999339341109829673400348809621624770; 401908484950693506997093150076214959332767599; -4575713844484879038235973434653699756726568; -9836410909461512775832097498211671237034705; 169003395560378510677295231219028521400695; 241048055630598085046649041649017179340947; -5426612705671418250132503405892900049312; -5914242958874176786433759996692831466601; 162321109010873707727111761439681785371; 145275954377402759461325873161579478235; -4653899370025737044172168298150729743; -3572386262444133181546162423790672815; 129761714880310295825962542732877943; 87935740777393885110368522971027121; -3548002020482403089116639759825199; -2166648905575243419066295953900332; 95629746094628235070431052641215; 53432212609372265495540517017923; -2549634377891774808857268208909; -1318822491821207240669312239340; 67403740066815440178842701207; 32577428100283554388738225354; -1769963862565527801782780141; -805331614322449977410431415; 46225063697348925108221955; 19922411096954484785766227; -1201841802040107267407305; -493175263358610787136524; 31131647754007338670197; 12216230002366998499067]%Z
  | 5%nat => [0; 10000000000000000000000000000000000000000000000000000000000000000000000; -4687500000000000000000000000000000000000000000000000000000000000000000; 1395318930041152263374485596707818930041152263374485596707818930041152; -286337770061728395061728395061728395061728395061728395061728395061728; 40317412551440329218106995884773662551440329218106995884773662551440; -3398501800411522633744855967078189300411522633744855967078189300412; 45445184621617666490944600374313302568504876185317976546939787565; 23916808048569011882908870275245396722559016047840148909147937331; -1276269260012274658854435189817471281889304634361896929867484737; -316289843065059324402567872795470007194203045383023547128695361; 32848118445335191621518574238471981775197126151348929449434615; 4761371399566057904831913289773249666529774948280323364473209; -808468981719098302564602603623317489687447573863716225733142; -72387648587737206946829215837589757971259120152653393045078; 19439760115173968493055649209359976628618744111281144100121; 1025697840597723597188135594331989805422174939059588078417; -461805510098848301805820862410656157715512980876724770090; -11535857196470580036842511483419097182567277829706532567; 10903545401333393987977088380966264343680088832843414938; 23148136317292526394079710319009149256060331682230817; -256699170432652921943348919933966692853838155658748912; 4570862060731496901449596268601391148674667707112834; 6036677961320570588235610331141070903098141679209686; -216776249440624129587941717218396578268559803462619; -141940966156001652983322668820112129617156786236224; 7502000950641386255323775216195272338350328197270; 3338704539507839716437151592544693040831678131002; -230600404426203476825215151352586387878079498205; -78581732456894818904499064631502735029932197687; 6668345304373880854865137046130568952407432628; 1850915654092529718946497968836516033623562600; -185915294451740855841031840576364890880407385; -43629746480345890447266081743709579390760015; 5061107609952928448226348958781093487520105; 1029191824975687820378889793000087314267690; -135513912210183166156877853283041765375437; -24294059612957382655924154095657070109687; 3585197396650370521151647380530663328205; 573796581610397206400846538673280836674; -94003593624568734535277452038948098902; -13559028049348631150009028417122303427; 2447843841915289183778591417480587076; 320528849130720958124170712217928968; -63398387818525482796415237594217452; -7579255458012182915348709416398517; 1634947532581737800934466956634694; 179249493702412114680612405777408; -42016364600825983441312142819354; -4239462888762380385476130884320; 1076705004823322739574283711173; 100261259332660721311492233616; -27526610369111903470143469048; -2370669120735994911390723431; 702353786229223643078924426; 56036115434352800244332061; -17891307821320164059110619; -1323931368242774072089252; 455115090113665169339852; 31260865756741003370756; -11563342906681962344067]%Z
  | 6%nat => [0; 10000000000000000000000000000000000000000000000000000000000000000000000; -4843750000000000000000000000000000000000000000000000000000000000000000; 1524134087791495198902606310013717421124828532235939643347050754458162; -343655558770576131687242798353909465020576131687242798353909465020576; 57174797239368998628257887517146776406035665294924554183813443072702; -6818045374657064471879286694101508916323731138545953360768175582990; 499603619487344931145170169621327905611276664049355028348936677844; -4916605119603904772025308221646167255249890571592948688911790706; -3063297516130216378535303043104042124691851008911867078997266988; 144145992708490953612537421448012923482201924521435120109236042; 37272438230924106576859924566459882549136341418677673999791260; -3730086734548760720779772291592611411963551481423207530093466; -512465268160858324340087646115722591591029535088287384216305; 90541930956636682886879744762089380749551075281509202157993; 6738188261551251707761075449380094816308333247920332892958; -2121583115030313531852796892966095296192472488608859247751; -68408811719011697663920451878190907931853672914409817350; 48691178462005581320638758651291745639751736877544735998; -48439878499872504165088964747315941969027642220636789; -1102710484910749093704303025760462366779916773423232291; 33353796916939381662488941184073596448439601268814988; 24735307488641352979154098748713704563220118664050951; -1437061643423249202168836871347370087158179759171040; -550471103350981180614826435059791108512961894498288; 47467713917327224979130984066261718499401563179243; 12158387178068105224373981741629443335040555894196; -1410755240356185004142403090780086569358316943037; -266388312532683465965856437677118103234189281877; 39667657428631007976790022608178193457502373815; 5782169735854361531123661934811259634391725113; -1078777806316425731729988769959223889338597485; -124073970867569098990147736977589144580476303; 28704117917893601704260952468409234550440356; 2623555356302933061657475203836068204824357; -752294854657541272615881214134337671836951; -54401788379624696182029193072230666945301; 19502579532510166379386222338165699941853; 1097849428220518799611782135970129705227; -501495835741630092074469585415763611590; -21286737504392761053563380691739177999; 12815944016522125940931985228148675199; 387108447330479441622204568697607460; -325941253155837592741689642881678163; -6252691988477405810932338607013569; 8257941620518398019180045633170467; 75240186604985505982852163482022; -208581995710474071698747687058114; 43169976042772575168880344934; 5255398877825066005523512644388; -46859952097304361346497768797; -132145878730884668157538623098; 2263407813627153554704948800; 3317220861592840048116461322; -82690373641594569452770115; -83155415576742252074774725; 2692822069296717611985685; 2082096275400003458016598; -82344550082174909005916; -52081738931987134546576; 2420220554706513944073]%Z
  | _ => [] end.
(** the same integer polynomials, computed with BigZ *)
Fixpoint baddz (a b : list bigZ) : list bigZ := match a, b with [], _ => b | _, [] => a | x :: a', y :: b' => BigZ.add x y :: baddz a' b' end.
Fixpoint bmulz (a b : list bigZ) : list bigZ := match a with [] => [] | x :: a' => baddz (bscal x b) (BigZ.zero :: bmulz a' b) end.
Fixpoint bub (p q : bigZ) (l : list bigZ) : bigZ := match l with [] => BigZ.zero | c :: l' => BigZ.add (BigZ.abs c) (BigZ.add (BigZ.div (BigZ.mul p (bub p q l')) q) BigZ.one) end.
Definition bsubz (a b : list bigZ) : list bigZ := baddz a (bscal (BigZ.of_Z (-1)) b).
Lemma baddz_ok a : forall b, toZ (baddz a b) = addz (toZ a) (toZ b).
Proof. induction a as [|x a IH]; intros [|y b]; try reflexivity. cbn [baddz toZ map addz]. rewrite BigZ.spec_add. f_equal. apply IH. Qed.
Lemma bscalz_ok c a : toZ (bscal c a) = sclz (BigZ.to_Z c) (toZ a).
Proof. unfold toZ, bscal, sclz. rewrite !map_map. apply map_ext. intros x. apply BigZ.spec_mul. Qed.
Lemma bmulz_ok a b : toZ (bmulz a b) = mulz (toZ a) (toZ b).
Proof. induction a as [|x a IH]; [reflexivity|]. cbn [bmulz]. rewrite baddz_ok, bscalz_ok. cbn [toZ map mulz]. fold (toZ b). fold (toZ (bmulz a b)). rewrite IH. reflexivity. Qed.
Lemma bsubz_ok a b : toZ (bsubz a b) = subz (toZ a) (toZ b).
Proof. unfold bsubz, subz. rewrite baddz_ok, bscalz_ok, BigZ.spec_of_Z. reflexivity. Qed.
Lemma bub_ok p q l : BigZ.to_Z (bub p q l) = ub (BigZ.to_Z p) (BigZ.to_Z q) (toZ l).
Proof. induction l as [|c l IH]; [reflexivity|]. cbn [bub toZ map ub]. rewrite BigZ.spec_add, BigZ.spec_abs, BigZ.spec_add, BigZ.spec_div, BigZ.spec_mul, IH. reflexivity. Qed.
Definition bnzl (D : Z) (b : list Z) (M : nat) : list bigZ := let fz := rl 0 M in let F := hd 0%Z fz in let fp := ofZl fz in let BD := BigZ.of_Z D in
  bsubz (baddz (bscal BD (BigZ.zero :: fp)) (bsubz [BigZ.of_Z (D * F)] (bscal BD fp))) (BigZ.zero :: bmulz (bsubz [BigZ.of_Z F] fp) (ofZl b)).
Definition btzl (qa qb : list Z) (M : nat) : list bigZ := let fz := rl 0 M in let F := hd 0%Z fz in let fp := ofZl fz in
  bsubz (bscal (BigZ.of_Z F) (ofZl qa)) (bmulz (bsubz fp [BigZ.of_Z F]) (ofZl (dlz qb))).
Lemma bnzl_ok D b M : toZ (bnzl D b M) = nzl D b M.
Proof.
  unfold bnzl, nzl. cbv zeta. rewrite bsubz_ok, baddz_ok, bscalz_ok, bsubz_ok, bscalz_ok. cbn [toZ map]. fold (toZ (ofZl (rl 0 M))). fold (toZ (bmulz (bsubz [BigZ.of_Z (hd 0%Z (rl 0 M))] (ofZl (rl 0 M))) (ofZl b))).
  rewrite bmulz_ok, bsubz_ok, !toZ_ofZl. cbn [toZ map]. rewrite !BigZ.spec_of_Z. reflexivity.
Qed.
Lemma btzl_ok qa qb M : toZ (btzl qa qb M) = tzl qa qb M.
Proof. unfold btzl, tzl. cbv zeta. rewrite bsubz_ok, bscalz_ok, bmulz_ok, bsubz_ok, !toZ_ofZl. cbn [toZ map]. rewrite !BigZ.spec_of_Z. reflexivity. Qed.
Lemma toZ_tl l : toZ (tl l) = tl (toZ l). Proof. destruct l; reflexivity. Qed.
Fixpoint bzerosb (k : nat) (l : list bigZ) : bool := match k, l with O, _ => true | S k', c :: l' => BigZ.eqb c BigZ.zero && bzerosb k' l' | _, [] => false end.
Lemma bzerosb_ok k : forall l, bzerosb k l = zerosb k (toZ l).
Proof. induction k as [|k IH]; intros [|c l]; try reflexivity. cbn [bzerosb zerosb toZ map]. rewrite BigZ.spec_eqb. f_equal. apply IH. Qed.
Definition chkT (p q : Z) (M : nat) (k : Z) (qa qb : list Z) : bool := let t := btzl qa qb M in let bp := BigZ.of_Z p in let bq := BigZ.of_Z q in
  bzerosb 1 t && BigZ.leb (BigZ.mul (bub bp bq (tl t)) (BigZ.of_Z (10 ^ k)%Z)) (BigZ.of_Z (hd 0 (rl 0 M) * DD)%Z) && BigZ.leb (bub bp bq (ofZl (dlz qb))) (BigZ.of_Z (10 * DD)%Z)
  && (p ^ Z.of_nat M * 10 ^ k <=? q ^ Z.of_nat M * hd 0 (rl 0 (S M)))%Z.
Definition chkN (p q : Z) (M : nat) (k : Z) (b : list Z) : bool := let t := bnzl DD b M in let bp := BigZ.of_Z p in let bq := BigZ.of_Z q in
  bzerosb 2 t && BigZ.leb (BigZ.mul (bub bp bq (tl (tl t))) (BigZ.of_Z (10 ^ k)%Z)) (BigZ.of_Z (hd 0 (rl 0 M) * DD)%Z) && BigZ.leb (bub bp bq (ofZl b)) (BigZ.of_Z (10 * DD)%Z)
  && (p ^ Z.of_nat (M - 1) * 10 ^ k <=? q ^ Z.of_nat (M - 1) * hd 0 (rl 0 (S M)))%Z.
Lemma IZRpow a k : (0 <= k)%Z -> IZR (a ^ k) = IZR a ^ Z.to_nat k.
Proof. intros H. rewrite <- (Z2Nat.id k) at 1 by exact H. rewrite pow_IZR. reflexivity. Qed.
Lemma rho_if p q M m k : (0 < q)%Z -> (0 <= k)%Z -> (p ^ Z.of_nat m * 10 ^ k <=? q ^ Z.of_nat m * hd 0 (rl 0 (S M)))%Z = true ->
  inv_fact (S M) * (IZR p / IZR q) ^ m <= / 10 ^ Z.to_nat k.
Proof.
  intros Hq Hk H. apply Z.leb_le, IZR_le in H. rewrite !mult_IZR, <- rl0_F, !IZRpow, !Nat2Z.id in H by lia. unfold inv_fact.
  assert (Q : 0 < IZR q) by (apply (IZR_lt 0), Hq). assert (QM : 0 < IZR q ^ m) by (apply pow_lt, Q).
  pose proof (INR_fact_lt_0 (S M)) as FP. assert (TP : 0 < 10 ^ Z.to_nat k) by (apply pow_lt; lra).
  unfold Rdiv. rewrite Rpow_mult_distr, pow_inv. set (f := INR (fact (S M))) in *. clearbody f. set (qm := IZR q ^ m) in *. set (t := 10 ^ Z.to_nat k) in *. set (pm := IZR p ^ m) in *. clearbody qm t pm.
  apply Rmult_le_reg_r with (f * qm * t); [repeat apply Rmult_lt_0_compat; assumption|].
  replace (/ f * (pm * / qm) * (f * qm * t)) with (pm * t) by (field; lra). replace (/ t * (f * qm * t)) with (qm * f) by (field; lra). exact H.
Qed.
Lemma ratio_le a b k : (0 <= k)%Z -> 0 < IZR b -> (a * 10 ^ k <=? b)%Z = true -> IZR a / IZR b <= / 10 ^ Z.to_nat k.
Proof.
  intros Hk Hb H. apply Z.leb_le, IZR_le in H. rewrite mult_IZR, IZRpow in H by lia. assert (TP : 0 < 10 ^ Z.to_nat k) by (apply pow_lt; lra).
  apply Rle_div_l; [exact Hb|]. apply Rmult_le_reg_r with (10 ^ Z.to_nat k); [exact TP|]. replace (/ 10 ^ Z.to_nat k * IZR b * 10 ^ Z.to_nat k) with (IZR b) by (field; lra). exact H.
Qed.
Lemma DDpos : 0 < IZR DD. Proof. apply (IZR_lt 0). reflexivity. Qed.
Lemma chkT_ok p q M k qa qb : (0 < q)%Z -> (0 <= p)%Z -> (0 <= k)%Z -> IZR p / IZR q <= 33 / 10 -> chkT p q M k qa qb = true ->
  forall u, Cmod u <= IZR p / IZR q -> Cmod (Cminus (cpev (zl DD qa) u) (Cmult (cpev (dl (zl DD qb)) u) (Cminus (Cexp u) (RtoC 1)))) <= 300 / 10 ^ Z.to_nat k * Cmod u.
Proof.
  intros Hq Hp Hk Hr H u Hu. unfold chkT in H. cbv zeta in H. rewrite bzerosb_ok, btzl_ok, !BigZ.spec_leb, BigZ.spec_mul, !bub_ok, toZ_tl, btzl_ok, toZ_ofZl, !BigZ.spec_of_Z in H. apply andb_prop in H as [H H4]. apply andb_prop in H as [H H3]. apply andb_prop in H as [H1 H2].
  assert (RP := rho_pos p q Hq Hp).
  eapply Rle_trans; [apply (resT_ok p q M DD Hq Hp ltac:(reflexivity) qa qb u H1 Hu)|]. apply Rmult_le_compat_r; [apply Cmod_ge_0|].
  unfold epsT. assert (TP : 0 < / 10 ^ Z.to_nat k) by (apply Rinv_0_lt_compat, pow_lt; lra).
  assert (A : IZR (ub p q (tl (tzl qa qb M))) / (IZR (hd 0%Z (rl 0 M)) * IZR DD) <= / 10 ^ Z.to_nat k).
  { rewrite <- mult_IZR. apply ratio_le; [exact Hk| |exact H2]. rewrite mult_IZR. apply Rmult_lt_0_compat; [apply F_pos|apply DDpos]. }
  assert (B := rho_if p q M M k Hq Hk H4).
  assert (C : IZR (ub p q (dlz qb)) / IZR DD <= 10). { apply Rle_div_l; [apply DDpos|]. apply Z.leb_le, IZR_le in H3. rewrite mult_IZR in H3. exact H3. }
  assert (EX : exp (IZR p / IZR q) <= 28). { eapply Rle_trans; [apply exp_mono, Hr|]. interval. }
  pose proof (exp_pos (IZR p / IZR q)) as EP. set (e := exp (IZR p / IZR q)) in *. clearbody e.
  assert (I0 : 0 <= inv_fact (S M) * (IZR p / IZR q) ^ M) by (apply Rmult_le_pos; [left; apply inv_fact_pos|apply pow_le, RP]).
  assert (E1 : e * (inv_fact (S M) * (IZR p / IZR q) ^ M) <= 28 * / 10 ^ Z.to_nat k) by (apply Rmult_le_compat; lra).
  assert (E0 : 0 <= e * (inv_fact (S M) * (IZR p / IZR q) ^ M)) by (apply Rmult_le_pos; lra).
  set (x := e * (inv_fact (S M) * (IZR p / IZR q) ^ M)) in *. set (y := IZR (ub p q (dlz qb)) / IZR DD) in *. clearbody x y.
  assert (y * x <= 10 * x) by (apply Rmult_le_compat_r; lra). unfold Rdiv in *. lra.
Qed.
Lemma chkN_ok p q M k b : (0 < q)%Z -> (0 <= p)%Z -> (0 <= k)%Z -> (1 <= M)%nat -> IZR p / IZR q <= 33 / 10 -> chkN p q M k b = true ->
  forall w, 0 < snd w <= PI -> Cmod w <= IZR p / IZR q -> Cmod (EU (zl DD b) 0 w) <= 60000 / 10 ^ Z.to_nat k.
Proof.
  intros Hq Hp Hk HM Hr H w Hy Hw. unfold chkN in H. cbv zeta in H. rewrite bzerosb_ok, bnzl_ok, !BigZ.spec_leb, BigZ.spec_mul, !bub_ok, !toZ_tl, bnzl_ok, toZ_ofZl, !BigZ.spec_of_Z in H. apply andb_prop in H as [H H4]. apply andb_prop in H as [H H3]. apply andb_prop in H as [H1 H2].
  assert (RP := rho_pos p q Hq Hp).
  eapply Rle_trans; [apply (EU0_ok p q M DD Hq Hp ltac:(reflexivity) b w HM H1 Hy Hw)|].
  unfold epsN. assert (TP : 0 < / 10 ^ Z.to_nat k) by (apply Rinv_0_lt_compat, pow_lt; lra).
  assert (A : IZR (ub p q (tl (tl (nzl DD b M)))) / (IZR (hd 0%Z (rl 0 M)) * IZR DD) <= / 10 ^ Z.to_nat k).
  { rewrite <- mult_IZR. apply ratio_le; [exact Hk| |exact H2]. rewrite mult_IZR. apply Rmult_lt_0_compat; [apply F_pos|apply DDpos]. }
  assert (B := rho_if p q M (M - 1) k Hq Hk H4).
  assert (C : IZR (ub p q b) / IZR DD <= 10). { apply Rle_div_l; [apply DDpos|]. apply Z.leb_le, IZR_le in H3. rewrite mult_IZR in H3. exact H3. }
  assert (EX : exp (IZR p / IZR q) <= 28). { eapply Rle_trans; [apply exp_mono, Hr|]. interval. }
  pose proof (exp_pos (IZR p / IZR q)) as EP. set (e := exp (IZR p / IZR q)) in *. clearbody e.
  assert (I0 : 0 <= inv_fact (S M) * (IZR p / IZR q) ^ (M - 1)) by (apply Rmult_le_pos; [left; apply inv_fact_pos|apply pow_le, RP]).
  assert (E1 : e * (inv_fact (S M) * (IZR p / IZR q) ^ (M - 1)) <= 28 * / 10 ^ Z.to_nat k) by (apply Rmult_le_compat; lra).
  assert (E0 : 0 <= e * (inv_fact (S M) * (IZR p / IZR q) ^ (M - 1))) by (apply Rmult_le_pos; lra).
  set (x := e * (inv_fact (S M) * (IZR p / IZR q) ^ (M - 1))) in *. set (y := IZR (ub p q b) / IZR DD) in *. set (r := IZR p / IZR q) in *. clearbody x y r.
  assert (Y1 : r * y <= 33). { destruct (Rle_dec 0 y) as [Y0|Y0]; [|assert (0 <= r * - y) by (apply Rmult_le_pos; lra); lra]. assert (r * y <= 33 / 10 * 10) by (apply Rmult_le_compat; lra). lra. }
  assert (Y2 : (r + 1 + r * y) * x <= 38 * x) by (apply Rmult_le_compat_r; lra).
  assert (EPI : e * (PI / 2) <= 28 * 2) by (apply Rmult_le_compat; [lra|pose proof PI_RGT_0; lra|lra|interval]).
  assert (EPI0 : 0 <= e * (PI / 2)) by (apply Rmult_le_pos; [lra|pose proof PI_RGT_0; lra]).
  set (g := e * (PI / 2)) in *. clearbody g. match goal with |- ?A * g <= _ => set (a := A) in * end.
  assert (AL : a <= (1 + 38 * 28) * / 10 ^ Z.to_nat k) by (unfold a, Rdiv in *; lra). clearbody a.
  apply Rle_trans with ((1 + 38 * 28) * / 10 ^ Z.to_nat k * g); [apply Rmult_le_compat_r; assumption|].
  unfold Rdiv. replace ((1 + 38 * 28) * / 10 ^ Z.to_nat k * g) with (((1 + 38 * 28) * g) * / 10 ^ Z.to_nat k) by ring. apply Rmult_le_compat_r; lra.
Qed.
Lemma bz_small : chkN 12 10 40 45 bz = true. Proof. vm_compute. reflexivity. Qed.
Lemma bz_large : chkN 33 10 50 24 bz = true. Proof. vm_compute. reflexivity. Qed.
Lemma qz_ok : forallb (fun n => chkT 11 10 40 44 (qz n) (qz (S n))) [1; 2; 3; 4; 5]%nat = true. Proof. vm_compute. reflexivity. Qed.
(** ** the reference expansions *)
Definition Bu : nat -> list R := IG (zl DD bz).
Definition Qu (n : nat) : list R := zl DD (qz n).
Theorem unity_small n (w : C) : 0 < snd w <= PI -> Cmod w <= 12 / 10 -> Cmod (EU (zl DD bz) n w) <= 60000 / 10 ^ 45 * inv_fact n * (Rabs (fst w) + snd w) ^ n.
Proof.
  intros Hy Hw. destruct w as [s y]. apply (EU_bound (zl DD bz) (12 / 10)); [|exact Hy|exact Hw]. intros s' y' H1 H2.
  apply (chkN_ok 12 10 40 45 bz); [lia|lia|lia|lia|lra|apply bz_small|exact H1|exact H2].
Qed.
Theorem unity_large n (w : C) : 0 < snd w <= PI -> Cmod w <= 33 / 10 -> Cmod (EU (zl DD bz) n w) <= 60000 / 10 ^ 24 * inv_fact n * (Rabs (fst w) + snd w) ^ n.
Proof.
  intros Hy Hw. destruct w as [s y]. apply (EU_bound (zl DD bz) (33 / 10)); [|exact Hy|exact Hw]. intros s' y' H1 H2.
  apply (chkN_ok 33 10 50 24 bz); [lia|lia|lia|lia|lra|apply bz_large|exact H1|exact H2].
Qed.
Theorem T_ref n (z : C) : (1 <= n <= 6)%nat -> good (11 / 10) z -> Cmod (Cminus (CLi n z) (cpev (Qu n) (U z))) <= 3000 / 10 ^ 44 * Cmod z.
Proof.
  intros Hn G. eapply Rle_trans; [apply (T_bound Qu (11 / 10) (300 / 10 ^ 44) 6)|].
  - unfold Qu, zl, qz. cbn [map]. pose proof DDpos. f_equal; [|f_equal]; field; lra.
  - intros k Hk. unfold Qu, zl. do 7 (destruct k as [|k]; [try lia; cbn [qz map hd]; unfold Rdiv; ring|]). lia.
  - apply Rmult_le_pos; [lra|]. left. apply Rinv_0_lt_compat, pow_lt. lra.
  - intros k u Hk Hu. unfold resT, Qu. apply (chkT_ok 11 10 40 44); [lia|lia|lia|lra| |exact Hu].
    pose proof qz_ok as Q. apply forallb_forall with (x := k) in Q; [exact Q|]. do 6 (destruct k as [|k]; [cbn; tauto || lia|]). lia.
  - exact G.
  - exact Hn.
  - apply Rmult_le_compat_r; [apply Cmod_ge_0|]. assert (INR n <= 6) by (replace 6 with (INR 6) by (cbn; ring); apply le_INR; lia).
    assert (0 < / 10 ^ 44) by (apply Rinv_0_lt_compat, pow_lt; lra). unfold Rdiv. replace (2 * (INR n - 1) * (300 * / 10 ^ 44)) with ((600 * (INR n - 1)) * / 10 ^ 44) by ring. apply Rmult_le_compat_r; lra.
Qed.
