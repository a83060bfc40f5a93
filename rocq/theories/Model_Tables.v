(** * Constant tables, as decimal literals (m, e) standing for m * 10^e.

    Transcribed from the sources by tools/gen_tables.py. *)
From Coq Require Import ZArith List.
Import ListNotations.
Local Open Scope Z_scope.

(* src/cpp/zeta.cpp:16-28  ZETAS_POS, 32 entries *)
Definition ZETAS_POS : list (Z * Z) := [
  (16449340668482264, -16); (12020569031595943, -16); (10823232337111382, -16);
  (10369277551433699, -16); (10173430619844491, -16); (10083492773819228, -16);
  (10040773561979443, -16); (10020083928260822, -16); (10009945751278181, -16);
  (10004941886041195, -16); (1000246086553308, -15); (10001227133475785, -16);
  (10000612481350587, -16); (1000030588236307, -15); (10000152822594087, -16);
  (10000076371976379, -16); (1000003817293265, -15); (10000019082127166, -16);
  (10000009539620339, -16); (10000004769329868, -16); (10000002384505027, -16);
  (1000000119219926, -15); (10000000596081891, -16); (10000000298035035, -16);
  (10000000149015548, -16); (10000000074507118, -16); (1000000003725334, -15);
  (10000000018626597, -16); (10000000009313274, -16); (10000000004656629, -16);
  (10000000002328312, -16); (10000000001164155, -16)
].

(* src/cpp/zeta.cpp:31-76  ZETAS_NEG, 130 entries *)
Definition ZETAS_NEG : list (Z * Z) := [
  (-83333333333333333, -18); (83333333333333333, -19); (-39682539682539683, -19);
  (41666666666666667, -19); (-75757575757575758, -19); (21092796092796093, -18);
  (-83333333333333333, -18); (44325980392156863, -17); (-30539543302701197, -16);
  (26456212121212121, -15); (-28146014492753623, -14); (36075105463980464, -13);
  (-54827583333333333, -12); (97493682385057471, -11); (-20052695796688079, -9);
  (4723848677216299, -7); (-12635724795916667, -6); (38087931125245369, -5);
  (-12850850499305083, -3); (4824144835485017, -1); (-20040310656516253, 0);
  (91677436031953308, 1); (-45979888343656503, 3); (25180471921451096, 5);
  (-15001733492153929, 7); (96899578874635941, 8); (-67645882379292821, 10);
  (50890659468662290, 12); (-41147288792557979, 14); (35666582095375556, 16);
  (-33066089876577577, 18); (32715634236478716, 20); (-34473782558278054, 22);
  (38614279832705259, 24); (-45892974432454332, 26); (57775386342770432, 28);
  (-76919858759507135, 30); (10813635449971655, 33); (-16029364522008965, 35);
  (25019479041560463, 37); (-41067052335810212, 39); (70798774408494581, 41);
  (-12804546887939509, 44); (24267340392333524, 46); (-48143218874045769, 48);
  (99875574175727531, 50); (-21645634868435186, 53); (48962327039620553, 55);
  (-11549023923963520, 58); (28382249570693707, 60); (-72612008803606716, 62);
  (19323514233419812, 65); (-53450160425288624, 67); (15356028846422423, 70);
  (-45789872682265798, 72); (14162025212194809, 75); (-45400652296092655, 77);
  (15076656758807860, 80); (-51830949148264564, 82); (18435647427256529, 85);
  (-67805554753090959, 87); (25773326702754605, 90); (-10119112875704598, 93);
  (41016346161542292, 95); (-17155244534032019, 98); (74003425705269094, 100);
  (-32909225357054443, 103); (15079831534164771, 106); (-71169879188254549, 108);
  (34580429141577772, 111); (-17290907606676748, 114); (88936991695032969, 116);
  (-47038470619636015, 119); (25571938231060206, 122); (-14284067500443528, 125);
  (81952152218313783, 127); (-48276485422727372, 130); (29189612374770324, 133);
  (-18108932162568904, 136); (11523577220021169, 139); (-75192311951981770, 141);
  (50294016576411050, 144); (-34473420444477677, 147); (24207458645868515, 150);
  (-17409465920377677, 153); (12819489863482243, 156); (-96624121108560918, 158);
  (74526910304300896, 161); (-58808393311674371, 164); (47462718654907615, 167);
  (-39169132594772825, 170); (33045071443226032, 173); (-28492890550994583, 176);
  (25103329345077587, 179); (-22593901995475253, 182); (20769138004287608, 185);
  (-19494732174927259, 188); (18680731471265914, 191); (-18270752662814577, 194);
  (18235386322595677, 197); (-18568690810125945, 200); (19287189851195602, 203);
  (-20431170460286448, 206); (22068411644527846, 209); (-24300821796490274, 212);
  (27274887879083470, 215); (-31197421573755085, 218); (36358938724282600, 221);
  (-43168300030760883, 224); (52204244879387200, 227); (-64292606949769305, 230);
  (80623033870130844, 233); (-10292714737903011, 237); (13375329699780524, 240);
  (-17689480902797380, 243); (23806479018092397, 246); (-32597127947194185, 249);
  (45404962371601213, 252); (-64328575193147851, 255); (92687048675749311, 258);
  (-13579619500285181, 262); (20227839736049322, 265); (-30629906992208336, 268);
  (47143085300742652, 271); (-73741045871355758, 274); (11720962767050827, 278);
  (-18928866644685657, 281); (31055517596048927, 284); (-51754977470366798, 287);
  (87601563446229215, 290)
].

(* src/cpp/eta.cpp:15-34  NEG_ETA, 54 entries *)
Definition NEG_ETA : list (Z * Z) := [
  (-69314718055994531, -17); (-82246703342411322, -17); (-90154267736969571, -17);
  (-94703282949724592, -17); (-97211977044690931, -17); (-9855510912974351, -16);
  (-99259381992283028, -17); (-9962330018526479, -16); (-99809429754160533, -17);
  (-99903950759827157, -17); (-99951714349806075, -17); (-99975768514385819, -17);
  (-99987854276326512, -17); (-99993917034597972, -17); (-99996955121309924, -17);
  (-99998476421490611, -17); (-99999237829204101, -17); (-99999618786961011, -17);
  (-99999809350817168, -17); (-99999904661158152, -17); (-99999952325821554, -17);
  (-99999976161323082, -17); (-99999988080131844, -17); (-99999994039889239, -17);
  (-99999997019885696, -17); (-999999985099232, -15); (-99999999254955048, -17);
  (-9999999962747534, -16); (-99999999813736942, -17); (-99999999906868228, -17);
  (-9999999995343403, -16); (-9999999997671699, -16); (-9999999998835849, -16);
  (-9999999999417924, -16); (-9999999999708962, -16); (-9999999999854481, -16);
  (-999999999992724, -15); (-999999999996362, -15); (-999999999998181, -15);
  (-9999999999990905, -16); (-9999999999995453, -16); (-9999999999997726, -16);
  (-9999999999998863, -16); (-9999999999999432, -16); (-9999999999999716, -16);
  (-9999999999999858, -16); (-9999999999999929, -16); (-9999999999999964, -16);
  (-9999999999999982, -16); (-9999999999999991, -16); (-9999999999999996, -16);
  (-9999999999999998, -16); (-9999999999999999, -16); (-9999999999999999, -16)
].

(* src/cpp/eta.cpp:37-74  NEG_ETA_NEG_N, 109 entries *)
Definition NEG_ETA_NEG_N : list (Z * Z) := [
  (-25, -2); (125, -3); (-25, -2);
  (10625, -4); (-775, -2); (86375, -3);
  (-136525, -2); (2904903125, -5); (-80057275, -2);
  (27741322625, -3); (-118052913025, -2); (605239800516875, -4);
  (-367941677853775, -2); (26170760990658388, -2); (-21531418140800295, 0);
  (20288775575173016, 2); (-21708009902623771, 4); (26173826968455815, 6);
  (-35324148876863878, 8); (53042033406864907, 10); (-88138218364311577, 12);
  (16128065107490779, 15); (-32355470001722734, 17); (70876727476537493, 19);
  (-16890450341293966, 22); (43639690731216831, 24); (-12185998827061261, 27);
  (36670584803153006, 29); (-11859898526302099, 32); (41120769493584015, 34);
  (-15249042436787620, 37); (60349693196941307, 39); (-25437161764210696, 42);
  (11396923802632288, 45); (-54180861064753979, 47); (27283654799994374, 50);
  (-14529750514918543, 53); (81705519371067450, 55); (-48445781606678368, 58);
  (30246694206649519, 61); (-19858807961690493, 64); (13694474620720087, 67);
  (-99070382984295808, 69); (75103780796592646, 72); (-59598418264260881, 75);
  (49455988887500020, 78); (-42873596927020241, 81); (38791952037716163, 84);
  (-36600317773156342, 87); (35978775704117284, 90); (-36818662617467813, 93);
  (39192743066421374, 96); (-43363921885063858, 99); (49833162711780838, 102);
  (-59438653020209606, 105); (73533439019770134, 108); (-94293465716973561, 111);
  (12525196404154548, 115); (-17223787163994400, 118); (24505178680729537, 121);
  (-36051616659014189, 124); (54813803836499771, 127); (-86083892012122616, 130);
  (13957139354298160, 134); (-23350508860591630, 137); (40291297374794860, 140);
  (-71669946227411534, 143); (13136385964069363, 147); (-24799083462304252, 150);
  (48198083696385558, 153); (-96400031196958281, 156); (19833611905147644, 160);
  (-41959717912682865, 163); (91243724595750010, 166); (-20386902382464212, 170);
  (46786408066350383, 173); (-11024400389046488, 177); (26662916424238258, 180);
  (-66165585014771755, 183); (16841726974970032, 187); (-43957474813006951, 190);
  (11760766011899571, 194); (-32245094671360478, 197); (90570855543185808, 200);
  (-26054618058433054, 204); (76741449421726560, 207); (-23136880427961752, 211);
  (71382598572408242, 214); (-22530900128907084, 218); (72736404696018159, 221);
  (-24010608416429639, 225); (81026279414941787, 228); (-27945745738098571, 232);
  (98485095122481192, 235); (-35456055356238575, 239); (13036999220919921, 243);
  (-48948166866453784, 246); (18761736309852136, 250); (-73399918877807488, 253);
  (29303136033539038, 257); (-11935494277949469, 261); (49589310621971370, 264);
  (-21012240064879845, 268); (90784179834777353, 271); (-39987113012775244, 275);
  (17952380922182709, 279); (-82136799002055846, 282); (38290431596908477, 286);
  (-18184610414701105, 290)
].

(* src/cpp/factorial.cpp:15-75  INVERSE_FACTORIALS, 178 entries *)
Definition INVERSE_FACTORIALS : list (Z * Z) := [
  (1, 0); (1, 0); (5, -1);
  (16666666666666667, -17); (41666666666666667, -18); (83333333333333333, -19);
  (13888888888888889, -19); (19841269841269841, -20); (24801587301587302, -21);
  (27557319223985891, -22); (27557319223985891, -23); (25052108385441719, -24);
  (20876756987868099, -25); (16059043836821615, -26); (11470745597729725, -27);
  (76471637318198165, -29); (47794773323873853, -30); (28114572543455208, -31);
  (15619206968586226, -32); (82206352466243297, -34); (41103176233121649, -35);
  (19572941063391261, -36); (88967913924505733, -38); (3868170170630684, -38);
  (16117375710961183, -40); (64469502843844734, -42); (24795962632247975, -43);
  (91836898637955461, -45); (32798892370698379, -46); (11309962886447717, -47);
  (37699876288159056, -49); (12161250415535179, -50); (38003907548547436, -52);
  (1151633562077195, -52); (33871575355211618, -55); (9677592958631891, -56);
  (26882202662866364, -58); (72654601791530713, -60); (19119632050402819, -61);
  (49024697565135434, -63); (12256174391283858, -64); (29893108271424045, -66);
  (71174067312914393, -68); (16552108677421952, -69); (37618428812322618, -71);
  (8359650847182804, -72); (18173154015614791, -74); (38666285139605939, -76);
  (80554760707512373, -78); (1643974708316579, -78); (32879494166331581, -81);
  (64469596404571727, -83); (12397999308571486, -84); (23392451525606577, -86);
  (43319354677049217, -88); (78762463049180395, -90); (14064725544496499, -91);
  (24674957095607893, -93); (42543029475186023, -95); (7210682961895936, -96);
  (12017804936493227, -98); (19701319568021683, -100); (31776321883905941, -102);
  (50438606164930064, -104); (78810322132703225, -106); (12124664943492804, -107);
  (18370704459837582, -109); (274189618803546, -109); (40322002765227352, -113);
  (58437685166996163, -115); (8348240738142309, -116); (11758085546679308, -118);
  (16330674370387928, -120); (22370786808750587, -122); (3023079298479809, -123);
  (40307723979730787, -126); (53036478920698404, -128); (6887854405285507, -129);
  (88305825708788551, -132); (11177952621365639, -133); (13972440776707049, -135);
  (17249926884823518, -137); (2103649620100429, -138); (25345176145788301, -141);
  (30172828744986072, -143); (35497445582336556, -145); (41276099514344832, -147);
  (47443792545223945, -149); (53913400619572665, -151); (60576854628733332, -153);
  (67307616254148146, -155); (73964413466096864, -157); (80396101593583548, -159);
  (86447421068369406, -161); (91965341562095113, -163); (96805622696942224, -165);
  (10083919030931482, -166); (1039579281539328, -167); (10607951852442123, -170);
  (10715102881254669, -172); (10715102881254669, -174); (10609012753717494, -176);
  (10400992895801465, -178); (10098051355147053, -180); (97096647645644744, -183);
  (92472997757756899, -185); (87238677129959339, -187); (81531473953233027, -189);
  (75492105512252803, -191); (69258812396562204, -193); (62962556724147458, -195);
  (56723024075808521, -197); (50645557210543322, -199); (44819077177471967, -201);
  (39314979980238567, -203); (34186939113250928, -205); (29471499235561145, -207);
  (25189315585949697, -209); (21346877615211607, -211); (1793855261782488, -212);
  (149487938481874, -213); (12354375081146612, -217); (10126536951759518, -219);
  (82329568713492014, -222); (66394813478622592, -224); (53115850782898073, -226);
  (42155437129284185, -228); (33193257582113532, -230); (25932232486026197, -232);
  (20102505803121083, -234); (15463466002400833, -236); (11804172520916666, -238);
  (89425549400883835, -241); (67237255188634463, -243); (50177056110921241, -245);
  (37168189711793512, -247); (273295512586717, -247); (19948577561074233, -251);
  (14455490986285676, -253); (1039963380308322, -254); (74283098593451574, -258);
  (52683048647837996, -260); (37100738484392955, -262); (2594457236670836, -263);
  (18017064143547472, -266); (12425561478308602, -268); (85106585467867134, -271);
  (57895636372698731, -273); (3911867322479644, -274); (26254143103890228, -277);
  (17502762069260152, -279); (11591233158450432, -281); (76258112884542314, -284);
  (49841903846106088, -286); (32364872627341615, -288); (20880562985381687, -290);
  (13384976272680569, -292); (85254625940640566, -295); (53958624013063649, -297);
  (33936241517650094, -299); (21210150948531309, -301); (13174006800330005, -303);
  (813210296316667, -304); (4989020222801638, -307); (30420855017083159, -310);
  (18436881828535248, -312); (11106555318394728, -314); (66506319271824716, -317);
  (39587094804657569, -319); (234243164524601, -319); (13779009677917706, -323);
  (80579003964431028, -326); (46848258118855249, -328); (27079917987777601, -330);
  (15563171257343449, -332); (88932407184819707, -335); (50529776809556651, -337);
  (28547896502574379, -339)
].

(* src/cpp/harmonic.cpp:23-27  c, 8 entries *)
Definition DIGAMMA_C : list (Z * Z) := [
  (83333333333333333, -18); (-83333333333333333, -19); (39682539682539683, -19);
  (-41666666666666667, -19); (75757575757575758, -19); (-21092796092796093, -18);
  (83333333333333333, -18); (-44325980392156863, -17)
].

(* src/cpp/Cl.cpp:27-79  B, 202 entries *)
Definition CL_B : list (Z * Z) := [
  (-83333333333333333, -18); (-13888888888888889, -19); (-33068783068783069, -21);
  (-82671957671957672, -23); (-20876756987868099, -24); (-52841901386874932, -26);
  (-13382536530684679, -27); (-33896802963225829, -29); (-85860620562778446, -31);
  (-21748686985580619, -32); (-55090028283602295, -34); (-13954464685812523, -35);
  (-35347070396294675, -37); (-89535174270375469, -39); (-22679524523376831, -40);
  (-57447906688722024, -42); (-14551724756148649, -43); (-36859949406653102, -45);
  (-93367342570950447, -47); (-23650224157006299, -48); (-59906717624821343, -50);
  (-15174548844682903, -51); (-38437581254541882, -53); (-9736353072646691, -54);
  (-2466247044200681, -55); (-62470767418207437, -58); (-15824030244644914, -59);
  (-4008273685948936, -60); (-10153075855569556, -62); (-25718041582418717, -64);
  (-65144560352338149, -66); (-16501309906896525, -67); (-41798306285394759, -69);
  (-10587634667702909, -70); (-26818791912607707, -72); (-67932793511074212, -74);
  (-17207577616681405, -75); (-43587303293488938, -77); (-11040792903684667, -78);
  (-27966655133781345, -80); (-70840365016794702, -82); (-17944074082892241, -83);
  (-45452870636110961, -85); (-11513346631982052, -86); (-29163647710923614, -88);
  (-73872382634973376, -90); (-18712093117637953, -91); (-47398285577617994, -93);
  (-12006125993354507, -94); (-30411872415142924, -96); (-77034172747051063, -98);
  (-19512983909098831, -99); (-49426965651594615, -101); (-12519996659171848, -102);
  (-31713522017635155, -104); (-80331289707353345, -106); (-20348153391661466, -107);
  (-51542474664474739, -109); (-13055861352149467, -110); (-33070883141750912, -112);
  (-83769525600490913, -114); (-21219068717497138, -115); (-53748528956122803, -117);
  (-13614661432172069, -118); (-3448634027993399, -119); (-87354920416383551, -122);
  (-22127259833925497, -123); (-56049003928372242, -125); (-14197378549991788, -126);
  (-35962379982587627, -128); (-91093772660782319, -130); (-23074322171091233, -131);
  (-5844794085299002, -132); (-14805036371705745, -134); (-37501595226227197, -136);
  (-94992650419929583, -138); (-24061919444675199, -139); (-60949553971026848, -141);
  (-15438702377042471, -142); (-39106689968592923, -144); (-99058402898794298, -146);
  (-25091786578563553, -147); (-63558237896024598, -149); (-1609948973461625, -149);
  (-40780483898724622, -152); (-1032981724531519, -152); (-26165732752609202, -155);
  (-66278575334086228, -157); (-16788559257443673, -158); (-42525917390343006, -160);
  (-10771940713664573, -161); (-2728564458083958, -162); (-69115345134370137, -165);
  (-17507121442157682, -166); (-44346056667239196, -168); (-1123298737848715, -168);
  (-28453489425693971, -171); (-72073530684151368, -173); (-18256438595501418, -174);
  (-46244099189746555, -176); (-11713767165946985, -177); (-29671318854112523, -179);
  (-75158328663197353, -181); (-19037827051837494, -182); (-48223379271757316, -184);
  (-12215124667619569, -185); (-30941272241548313, -187); (-78375158172837117, -189);
  (-19852659485568249, -190); (-50287373938151486, -192); (-12737940624195893, -193);
  (-32265580530233667, -195); (-81729670255761088, -197); (-20702367322529201, -198);
  (-52439709032927841, -200); (-13283133472690102, -201); (-33646570148302941, -203);
  (-85227757823275058, -205); (-21588443254591854, -206); (-54684165588767235, -208);
  (-13851660959868732, -209); (-35086667096656512, -211); (-88875566007447618, -213);
  (-22512443861893281, -214); (-57024686469217722, -216); (-14444521824735857, -217);
  (-36588401210745441, -219); (-92679502956336812, -221); (-23475992347298971, -222);
  (-59465383295169881, -224); (-15062757553029781, -225); (-38154410604763518, -227);
  (-96646251091260105, -229); (-24480781387902631, -230); (-62010543667790175, -232);
  (-15707454206813435, -233); (-39787446306053875, -235); (-10078277884588346, -236);
  (-2552857610857218, -237); (-64664638700600961, -240); (-1637974433237253, -240);
  (-41490377087871461, -243); (-10509635290775169, -244); (-26621217182765621, -246);
  (-67432330873938832, -248); (-17080808949773099, -249); (-43266194508991167, -251);
  (-109594550983765, -250); (-27760624066064009, -254); (-70318482225589324, -256);
  (-17811879627573501, -257); (-4511801816901474, -258); (-11428527511202687, -260);
  (-28948798368101921, -262); (-73328162891986569, -264); (-18574240646335573, -265);
  (-4704910118860853, -266); (-11917676554344843, -268); (-30187827368818927, -270);
  (-76466660014982318, -272); (-19369231254735576, -273); (-49062835924299293, -275);
  (-12427761521749539, -276); (-31479887685209103, -278); (-79739487029830971, -280);
  (-20198248022238287, -281); (-51162759927867278, -283); (-12959678485750701, -284);
  (-32827249095010017, -286); (-83152393350706909, -288); (-21062747292467202, -289);
  (-53352562160805552, -291); (-13514361871210552, -292); (-34232278524048296, -294);
  (-86711374470768819, -296); (-21964247741580717, -297); (-55636089474762561, -299);
  (-14092786097034883, -300); (-35697444204246398, -302); (-90422682494513886, -304);
  (-22904333046148606, -305); (-58017353369352214, -307); (-14695967287946349, -308);
  (-37225320009595016, -310); (-94292837120924187, -312); (-23884654665215509, -313);
  (-60500537039203004, -315); (-15324965059522865, -316); (-38818589977708149, -318);
  (-98328637096699497, -320); (-2490693474143869, -320); (-63090002722625804, -323);
  (-15980884379636898, -324); (-40480053024903931, -326); (-10253717215969654, -327);
  (-25972969126396544, -329); (-65790299364809836, -331); (-16664877509565689, -332);
  (-42212627863094242, -334); (-1069258354935559, -334); (-27084630535382438, -337);
  (-68606170609008831, -339)
].

(* src/cpp/Cl.cpp:99-103  zeta, 8 entries *)
Definition CL_ZETA : list (Z * Z) := [
  (16449340668482264, -16); (12020569031595943, -16); (10823232337111382, -16);
  (10369277551433699, -16); (10173430619844491, -16); (10083492773819228, -16);
  (10040773561979443, -16); (10020083928260822, -16)
].

