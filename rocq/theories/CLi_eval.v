(** * Values of the complex Li3 .. Li6 in exact arithmetic (generated by tools/gen_cli_eval.py) *)
From Coq Require Import ZArith Reals List Bool Lra Lia Psatz.
From Coquelicot Require Import Coquelicot.
From Verif Require Import Num NumR Spec Eval_R Proof_Horner Cplx Ccalc CLi CLi_disc Cpoly CLi_unity CLi_T CLi_region Clausen Rest Model_LiR Model_LiC CLi_code.
Import ListNotations.
Local Open Scope R_scope.

(** the logarithmic coefficient of the series at unity, as the code writes it *)
Definition Lc (n : nat) (w : C) : C := match n with
  | 3 => Cmult (RtoC (rq (25, 10 ^ 2)%Z)) (Cminus (RtoC (rq (3, 1)%Z)) (Cmult (RtoC (rq (2, 1)%Z)) (Clog (Copp w))))
  | 4 => Cmult (RtoC (/ IZR 6)) (Cminus (RtoC (rq (11, 6)%Z)) (Clog (Copp w)))
  | 5 => Cmult (RtoC (/ IZR 24)) (Cminus (RtoC (rq (25, 12)%Z)) (Clog (Copp w)))
  | _ => Cmult (RtoC (/ IZR 120)) (Cminus (RtoC (rq (137, 60)%Z)) (Clog (Copp w)))
  end%nat.
Lemma Lm_Lc n w : (3 <= n <= 6)%nat -> Lm n w = Cmult (Cpow w (n - 1)) (Lc n w).
Proof.
  intros H. assert (C3 : n = 3%nat \/ n = 4%nat \/ n = 5%nat \/ n = 6%nat) by lia.
  destruct C3 as [->|[->|[->| ->]]]; unfold Lm, Lc, rq; cbn [Nat.sub fst snd];
  [replace (inv_fact 2) with (/ 2) by (unfold inv_fact; cbn; field); replace (Hm 2) with (3 / 2) by (cbn; field)
  |replace (inv_fact 3) with (/ 6) by (unfold inv_fact; cbn; field); replace (Hm 3) with (11 / 6) by (cbn; field)
  |replace (inv_fact 4) with (/ 24) by (unfold inv_fact; cbn; field); replace (Hm 4) with (25 / 12) by (cbn; field)
  |replace (inv_fact 5) with (/ 120) by (unfold inv_fact; cbn; field); replace (Hm 5) with (137 / 60) by (cbn; field)];
  match goal with |- context [Cpow w ?k] => generalize (Cpow w k) end; intros p; generalize (Clog (Copp w)); intros l; try ring.
  change (10 ^ 2)%Z with 100%Z. unfold Cminus, Cplus, Copp, Cmult, RtoC. cbn [fst snd]. f_equal; field.
Qed.
(** the inversion remainder, as the code writes it (p: the literal for pi, z2: the literal for zeta(2)) *)
Definition restq (n : nat) (p z2 : R) (L : C) : C := let p2 := p * p in let p4 := p2 * p2 in let p6 := p2 * p4 in let L2 := Cmult L L in
  match n with
  | 3 => Cmult (Copp L) (Cplus (Cmult (RtoC (/ IZR 6)) L2) (RtoC z2))
  | 4 => Cmult (RtoC (rq (1, 360)%Z)) (Cplus (RtoC (rq (-7, 1)%Z * p4)) (Cmult L2 (Cminus (RtoC (rq (-30, 1)%Z * p2)) (Cmult (RtoC (rq (15, 1)%Z)) L2))))
  | 5 => Cmult (Cmult (RtoC (rq (-1, 360)%Z)) L) (Cplus (RtoC (rq (7, 1)%Z * p4)) (Cmult L2 (Cplus (RtoC (rq (10, 1)%Z * p2)) (Cmult (RtoC (rq (3, 1)%Z)) L2))))
  | _ => Cplus (RtoC (rq (-31, 1)%Z * p6 / IZR 15120)) (Cmult L2 (Cplus (RtoC (rq (-7, 720)%Z * p4)) (Cmult L2 (Cminus (RtoC (rq (-1, 144)%Z * p2)) (Cmult (RtoC (rq (1, 720)%Z)) L2)))))
  end%nat.
Section E.
Variable e : R.
Notation N := (NumR e).
Lemma omul a b : mul N (Some a) (Some b) = Some (a * b). Proof. reflexivity. Qed.
Lemma odivq a b : b <> 0%Z -> div N (Some a) (Some (rq (b, 1%Z))) = Some (a / IZR b).
Proof. intros H. unfold rq. cbn [fst snd]. replace (IZR b / 1) with (IZR b) by field. cbn [div NumR]. rewrite odiv_some by (apply not_0_IZR, H). reflexivity. Qed.
Lemma cdivq z b : b <> 0%Z -> cdiv_cr N (ofC e z) (Some (rq (b, 1%Z))) = ofC e (Cmult (RtoC (/ IZR b)) z).
Proof.
  intros H. pose proof (not_0_IZR b H) as H'. unfold rq. cbn [fst snd]. replace (IZR b / 1) with (IZR b) by field. rewrite ofC_div_cr by exact H'. f_equal.
  rewrite RtoC_inv by exact H'. unfold Cdiv. apply Cmult_comm.
Qed.
Lemma rq1 : rq (1, 1)%Z = 1. Proof. unfold rq. cbn [fst snd]. field. Qed.
Lemma rqm1 : RtoC (rq (-1, 1)%Z) = Copp (RtoC 1). Proof. unfold rq. cbn [fst snd]. rewrite <- RtoC_opp. f_equal. field. Qed.
Lemma Cm1 : RtoC (-1) = Copp (RtoC 1). Proof. rewrite <- RtoC_opp. reflexivity. Qed.
(** what the code returns: [U]: series at unity, [T]: series in -Log(1-z), [sg]: sign of the inverted term *)
Definition cval (n : nat) (Ul Tl : list (Z * Z)) (p z2 sg : R) (z : C) : C :=
  if Rlt_dec (Cmod (Clog z) * Cmod (Clog z)) 1 then Cplus (cpev (map rq Ul) (Clog z)) (Lm n (Clog z))
  else if Rle_dec (Cmod z) 1 then cpev (map rq ((0, 1)%Z :: Tl)) (U z)
  else Cplus (restq n p z2 (lmz p z)) (Cmult (RtoC sg) (cpev (map rq ((0, 1)%Z :: Tl)) (U (Cinv z)))).
End E.
Arguments omul {e}. Arguments odivq {e}. Arguments cdivq {e}.
Ltac evs := repeat first [rewrite frac by discriminate | rewrite lit0 | rewrite litneg | rewrite omul | rewrite odivq by discriminate
  | rewrite ofC_mul | rewrite ofC_add | rewrite ofC_sub | rewrite ofC_opp | rewrite ofC_mul_rc | rewrite ofC_mul_cr | rewrite ofC_add_rc | rewrite ofC_add_cr
  | rewrite ofC_sub_rc | rewrite ofC_sub_cr | rewrite cdivq by discriminate | rewrite spread_ok].

(* src/cpp/Li3.cpp: the tables and constants of Model_LiC.cLi3_d *)
Definition T_cLi3_d_bf : list (Z * Z) := [(1, 1); (-3, 8); (17, 216); (-5, 576); (12962962962962963, 10^20); (81018518518518519, 10^21); (-34193571608537595, 10^22); (-1328656462585034, 10^21); (86608717561098513, 10^24); (252608759553204, 10^22); (-21446944683640648, 10^25); (-51401106220129789, 10^26); (52495821146008294, 10^27); (10887754406636318, 10^27); (-12779396094493695, 10^28); (-23698241773087452, 10^29); (31043578879654623, 10^30); (52617586299125061, 10^31)]%Z.
Definition T_cLi3_d_cs : list (Z * Z) := [(-34722222222222222, 10^19); (11574074074074074, 10^21); (-98418997228521038, 10^24); (11482216343327454, 10^25); (-15815724990809166, 10^27); (24195009792525152, 10^29); (-39828977769894877, 10^31)]%Z.
Definition T_cLi3_d_hd : list (Z * Z) := [(12020569031595943, 10^16); (16449340668482264, 10^16); (0, 1); (-1, 12)]%Z.
Definition T_cLi3_d_pi : Z * Z := (31415926535897932, 10^16)%Z.
Lemma cLi3_d_bf_eq e : cLi3_d_bf (NumR e) = Sq T_cLi3_d_bf. Proof. unfold cLi3_d_bf, Sq, T_cLi3_d_bf. cbn [map]. tab. Qed.
Lemma cLi3_d_cs_eq e : cLi3_d_cs (NumR e) = Sq T_cLi3_d_cs. Proof. unfold cLi3_d_cs, Sq, T_cLi3_d_cs. cbn [map]. tab. Qed.
Lemma ev_cLi3_d e z : snd z <> 0 ->
  cLi3_d (NumR e) (ofC e z) = ofC e (cval 3 (T_cLi3_d_hd ++ spread T_cLi3_d_cs) T_cLi3_d_bf (rq T_cLi3_d_pi) (rq (16449340668482264, 10^16)%Z) 1 z).
Proof.
  intros H. destruct (nonreal e z H) as [ZN EQ]. pose proof (nonreal1 z H) as ZO. unfold cLi3_d, cval. cbv zeta. rewrite skip2 by exact EQ. rewrite branch_log by exact ZN. rewrite ofC_arg, branch_unity. unfold Rltb. destruct (Rlt_dec (Cmod (Clog z) * Cmod (Clog z)) 1) as [HU|HU].
  - change (@pair (car (NumR e)) (car (NumR e)) (Some (ln (Cmod z))) (Some (Carg z))) with (ofC e (Clog z)).
    assert (W0 : Copp (Clog z) <> RtoC 0) by (apply Copp_ne, Clog_n0; assumption).
    rewrite Lm_Lc by lia. rewrite cLi3_d_cs_eq. cbn [Nat.sub Lc]. set (w := Clog z) in *. rewrite ofC_opp, pos_log_ok by exact W0.
    unfold T_cLi3_d_cs, T_cLi3_d_hd. cbn [Num.aref nth Sq map app spread]. evs. apply (f_equal (ofC e)). cbn [cpev]. rewrite !rq0.
    replace (rq (-1, 12)%Z) with (- (/ IZR 12)) by (unfold rq; cbn [fst snd]; field). rewrite RtoC_opp.
    generalize (Clog (Copp w)); intros lw. absq. cbn [Cpow]. change (RtoC 0) with (RtoC 0). ring.
  - rewrite ofC_abs, branch_le1. unfold Rleb. destruct (Rle_dec (Cmod z) 1) as [H1|H1].
    + rewrite opp1p by exact ZO. rewrite cLi3_d_bf_eq. rewrite ?(lit_int _ 0). match goal with |- context [@pair ?A ?B (Some 0) (Some 0)] => change (@pair A B (Some 0) (Some 0)) with (ofC e (RtoC 0)) end.
      set (u := U z).
      unfold T_cLi3_d_bf. cbn [Num.aref nth Sq map]. evs. cbn [cpev]. rewrite rq0.
      apply (f_equal (ofC e)). absq. ring.
    + rewrite inv1p by assumption. rewrite cLi3_d_bf_eq. rewrite branch_pos. rewrite (litneg e 31415926535897932). rewrite lmz_ok. fold (rq T_cLi3_d_pi).
      set (u := U (Cinv z)).
      unfold T_cLi3_d_bf. cbn [Num.aref nth Sq map]. evs. cbn [cpev]. rewrite rq0.
      apply (f_equal (ofC e)). unfold T_cLi3_d_pi. cbn [restq]. set (Lz := lmz _ z).
      match goal with |- context [Cplus ?R0 _] => idtac end. absq. ring.
Qed.
(* src/cpp/Li3.cpp: the tables and constants of Model_LiC.cLi3_l *)
Definition T_cLi3_l_bf : list (Z * Z) := [(1, 1); (-3, 8); (17, 216); (-5, 576); (7, 54000); (7, 86400); (-341935716085375949321527552820069827, 10^41); (-13286564625850340136054421768707483, 10^40); (866087175610985134794658604182413706, 10^43); (252608759553203997648442092886537331, 10^43); (-214469446836406476093388507573649032, 10^44); (-514011062201297891533581769272004962, 10^45); (524958211460082943639408880855807284, 10^46); (108877544066363183753729715704249107, 10^46); (-12779396094493695305581831754072212, 10^46); (-236982417730874520997977788101244891, 10^48); (310435788796546229428475327046556211, 10^49); (526175862991250608413183925112250061, 10^50); (-753847954994926536599250143226771028, 10^51); (-118623225777522852530825009512459322, 10^51); (183169799654913833820892731212815349, 10^52); (270681710318373501514907347126169436, 10^53)]%Z.
Definition T_cLi3_l_cs : list (Z * Z) := [(-347222222222222222222222222222222222, 10^38); (115740740740740740740740740740740741, 10^40); (-984189972285210380448475686570924666, 10^43); (114822163433274544385655496766607878, 10^44); (-158157249908091658933409775160616911, 10^46); (241950097925251519452732701564998016, 10^48); (-398289777698948774786517290926462002, 10^50); (69233666183059290580682095409506587, 10^51); (-125527223044997727545846570912655367, 10^53)]%Z.
Definition T_cLi3_l_hd : list (Z * Z) := [(120205690315959428539973816151144999, 10^35); (164493406684822643647241516664602519, 10^35); (0, 1); (-1, 12)]%Z.
Definition T_cLi3_l_pi : Z * Z := (314159265358979323846264338327950288, 10^35)%Z.
Lemma cLi3_l_bf_eq e : cLi3_l_bf (NumR e) = Sq T_cLi3_l_bf. Proof. unfold cLi3_l_bf, Sq, T_cLi3_l_bf. cbn [map]. tab. Qed.
Lemma cLi3_l_cs_eq e : cLi3_l_cs (NumR e) = Sq T_cLi3_l_cs. Proof. unfold cLi3_l_cs, Sq, T_cLi3_l_cs. cbn [map]. tab. Qed.
Lemma ev_cLi3_l e z : ordinary3 z ->
  cLi3_l (NumR e) (ofC e z) = ofC e (cval 3 (T_cLi3_l_hd ++ spread T_cLi3_l_cs) T_cLi3_l_bf (rq T_cLi3_l_pi) (rq (164493406684822643647241516664602519, 10^35)%Z) 1 z).
Proof.
  intros H. destruct (ord_ne z (ord3 z H)) as [ZN ZO]. pose proof (ord3_tests e z H) as TS. unfold cLi3_l, cval. cbv zeta. rewrite skip4 by exact TS. rewrite branch_log by exact ZN. rewrite ofC_arg, branch_unity. unfold Rltb. destruct (Rlt_dec (Cmod (Clog z) * Cmod (Clog z)) 1) as [HU|HU].
  - change (@pair (car (NumR e)) (car (NumR e)) (Some (ln (Cmod z))) (Some (Carg z))) with (ofC e (Clog z)).
    assert (W0 : Copp (Clog z) <> RtoC 0) by (apply Copp_ne, Clog_n0; assumption).
    rewrite Lm_Lc by lia. rewrite cLi3_l_cs_eq. cbn [Nat.sub Lc]. set (w := Clog z) in *. rewrite ofC_opp, pos_log_ok by exact W0.
    rewrite ofC_mul, chorner_ok by (unfold T_cLi3_l_cs; cbn [length]; lia). unfold T_cLi3_l_hd. cbn [map app]. evs. apply (f_equal (ofC e)). cbn [cpev]. rewrite !rq0, ?spread_ok.
    generalize (cpev (map rq T_cLi3_l_cs) (Cmult w w)); intros X.
    replace (rq (-1, 12)%Z) with (- (/ IZR 12)) by (unfold rq; cbn [fst snd]; field). rewrite RtoC_opp.
    generalize (Clog (Copp w)); intros lw. absq. cbn [Cpow]. change (RtoC 0) with (RtoC 0). ring.
  - rewrite ofC_abs, branch_le1. unfold Rleb. destruct (Rle_dec (Cmod z) 1) as [H1|H1].
    + rewrite opp1p by exact ZO. rewrite cLi3_l_bf_eq. rewrite ?(lit_int _ 0). match goal with |- context [@pair ?A ?B (Some 0) (Some 0)] => change (@pair A B (Some 0) (Some 0)) with (ofC e (RtoC 0)) end.
      set (u := U z).
      rewrite chorner_ok by (unfold T_cLi3_l_bf; cbn [length]; lia). evs. rewrite map_cons. cbn [cpev]. rewrite rq0. generalize (cpev (map rq T_cLi3_l_bf) u); intros X.
      apply (f_equal (ofC e)). absq. ring.
    + rewrite inv1p by assumption. rewrite cLi3_l_bf_eq. rewrite branch_pos. rewrite (litneg e 314159265358979323846264338327950288). rewrite lmz_ok. fold (rq T_cLi3_l_pi).
      set (u := U (Cinv z)).
      rewrite chorner_ok by (unfold T_cLi3_l_bf; cbn [length]; lia). evs. rewrite map_cons. cbn [cpev]. rewrite rq0. generalize (cpev (map rq T_cLi3_l_bf) u); intros X.
      apply (f_equal (ofC e)). unfold T_cLi3_l_pi. cbn [restq]. set (Lz := lmz _ z).
      match goal with |- context [Cplus ?R0 _] => idtac end. absq. ring.
Qed.
(* src/cpp/Li3.cpp: the tables and constants of Model_LiC.cLi3_q *)
Definition T_cLi3_q_bf : list (Z * Z) := [(1, 1); (-3, 8); (17, 216); (-5, 576); (7, 54000); (7, 86400); (-341935716085375949321527552820069827, 10^41); (-13286564625850340136054421768707483, 10^40); (866087175610985134794658604182413706, 10^43); (252608759553203997648442092886537331, 10^43); (-214469446836406476093388507573649032, 10^44); (-514011062201297891533581769272004962, 10^45); (524958211460082943639408880855807284, 10^46); (108877544066363183753729715704249107, 10^46); (-12779396094493695305581831754072212, 10^46); (-236982417730874520997977788101244891, 10^48); (310435788796546229428475327046556211, 10^49); (526175862991250608413183925112250061, 10^50); (-753847954994926536599250143226771028, 10^51); (-118623225777522852530825009512459322, 10^51); (183169799654913833820892731212815349, 10^52); (270681710318373501514907347126169436, 10^53); (-445543389782963882643263099217632212, 10^54); (-623754849225569465036532224739838641, 10^55); (108515215348745349131365609968642833, 10^55); (144911748660360819307349049665275324, 10^56); (-264663397544589903347408911861443741, 10^57); (-338976534885101047219258165860814078, 10^58); (646404773360331088903253098219534234, 10^59); (797583448960241242420922272590502795, 10^60); (-15809178790287483355921117629382677, 10^59); (-188614997296228681931102253988531956, 10^61); (387155366384184733039971271888313319, 10^62); (448011750023456073048653898320511684, 10^63); (-94930338719118361264175367602769915, 10^63); (-106828138090773812240182143033807908, 10^64); (233044789361030518600785199019281371, 10^65); (255607757265197540805635698286695865, 10^66); (-5727421606137259684472744580330571, 10^65); (-613471321379642358258549296897773326, 10^68); (1409080860406894484012686884894217, 10^66); (147642223976665341443182801167106626, 10^69); (-347010516489959160555004020312910903, 10^70); (-356210662409746357967357370318293608, 10^71); (855369656823692105754731289124468101, 10^72)]%Z.
Definition T_cLi3_q_cs : list (Z * Z) := [(-347222222222222222222222222222222222, 10^38); (115740740740740740740740740740740741, 10^40); (-984189972285210380448475686570924666, 10^43); (114822163433274544385655496766607878, 10^44); (-158157249908091658933409775160616911, 10^46); (241950097925251519452732701564998016, 10^48); (-398289777698948774786517290926462002, 10^50); (69233666183059290580682095409506587, 10^51); (-125527223044997727545846570912655367, 10^53); (235375400276846523056441171414060379, 10^55); (-45363989034586870184475070890170083, 10^56); (894516967039264316712031170773304472, 10^59); (-179828400469549627172020247141015426, 10^60); (367549976479373844433604733912674099, 10^62); (-762080797156479522953948500963765478, 10^64); (160004196436948597517376392257325602, 10^65); (-339676114756037558792312060520851852, 10^67); (728227228675776469531725636144432664, 10^69); (-157502264795800348718497893940378261, 10^70); (343354009248058933588797212016527038, 10^72)]%Z.
Definition T_cLi3_q_hd : list (Z * Z) := [(120205690315959428539973816151144999, 10^35); (164493406684822643647241516664602519, 10^35); (0, 1); (-1, 12)]%Z.
Definition T_cLi3_q_pi : Z * Z := (314159265358979323846264338327950288, 10^35)%Z.
Lemma cLi3_q_bf_eq e : cLi3_q_bf (NumR e) = Sq T_cLi3_q_bf. Proof. unfold cLi3_q_bf, Sq, T_cLi3_q_bf. cbn [map]. tab. Qed.
Lemma cLi3_q_cs_eq e : cLi3_q_cs (NumR e) = Sq T_cLi3_q_cs. Proof. unfold cLi3_q_cs, Sq, T_cLi3_q_cs. cbn [map]. tab. Qed.
Lemma ev_cLi3_q e z : ordinary3 z ->
  cLi3_q (NumR e) (ofC e z) = ofC e (cval 3 (T_cLi3_q_hd ++ spread T_cLi3_q_cs) T_cLi3_q_bf (rq T_cLi3_q_pi) (rq (164493406684822643647241516664602519, 10^35)%Z) 1 z).
Proof.
  intros H. destruct (ord_ne z (ord3 z H)) as [ZN ZO]. pose proof (ord3_tests e z H) as TS. unfold cLi3_q, cval. cbv zeta. rewrite skip4 by exact TS. rewrite branch_log by exact ZN. rewrite ofC_arg, branch_unity. unfold Rltb. destruct (Rlt_dec (Cmod (Clog z) * Cmod (Clog z)) 1) as [HU|HU].
  - change (@pair (car (NumR e)) (car (NumR e)) (Some (ln (Cmod z))) (Some (Carg z))) with (ofC e (Clog z)).
    assert (W0 : Copp (Clog z) <> RtoC 0) by (apply Copp_ne, Clog_n0; assumption).
    rewrite Lm_Lc by lia. rewrite cLi3_q_cs_eq. cbn [Nat.sub Lc]. set (w := Clog z) in *. rewrite ofC_opp, pos_log_ok by exact W0.
    rewrite ofC_mul, chorner_ok by (unfold T_cLi3_q_cs; cbn [length]; lia). unfold T_cLi3_q_hd. cbn [map app]. evs. apply (f_equal (ofC e)). cbn [cpev]. rewrite !rq0, ?spread_ok.
    generalize (cpev (map rq T_cLi3_q_cs) (Cmult w w)); intros X.
    replace (rq (-1, 12)%Z) with (- (/ IZR 12)) by (unfold rq; cbn [fst snd]; field). rewrite RtoC_opp.
    generalize (Clog (Copp w)); intros lw. absq. cbn [Cpow]. change (RtoC 0) with (RtoC 0). ring.
  - rewrite ofC_abs, branch_le1. unfold Rleb. destruct (Rle_dec (Cmod z) 1) as [H1|H1].
    + rewrite opp1p by exact ZO. rewrite cLi3_q_bf_eq. rewrite ?(lit_int _ 0). match goal with |- context [@pair ?A ?B (Some 0) (Some 0)] => change (@pair A B (Some 0) (Some 0)) with (ofC e (RtoC 0)) end.
      set (u := U z).
      rewrite chorner_ok by (unfold T_cLi3_q_bf; cbn [length]; lia). evs. rewrite map_cons. cbn [cpev]. rewrite rq0. generalize (cpev (map rq T_cLi3_q_bf) u); intros X.
      apply (f_equal (ofC e)). absq. ring.
    + rewrite inv1p by assumption. rewrite cLi3_q_bf_eq. rewrite branch_pos. rewrite (litneg e 314159265358979323846264338327950288). rewrite lmz_ok. fold (rq T_cLi3_q_pi).
      set (u := U (Cinv z)).
      rewrite chorner_ok by (unfold T_cLi3_q_bf; cbn [length]; lia). evs. rewrite map_cons. cbn [cpev]. rewrite rq0. generalize (cpev (map rq T_cLi3_q_bf) u); intros X.
      apply (f_equal (ofC e)). unfold T_cLi3_q_pi. cbn [restq]. set (Lz := lmz _ z).
      match goal with |- context [Cplus ?R0 _] => idtac end. absq. ring.
Qed.
(* src/cpp/Li4.cpp: the tables and constants of Model_LiC.cLi4_d *)
Definition T_cLi4_d_bf : list (Z * Z) := [(1, 1); (-7, 16); (11651234567901235, 10^17); (-19820601851851852, 10^18); (19279320987654321, 10^19); (-31057098765432099, 10^21); (-15624009114857835, 10^21); (84851235467732066, 10^23); (22909616603189711, 10^23); (-21832614218526917, 10^24); (-38828248791720156, 10^25); (54462921032203321, 10^26); (69608052106827254, 10^27); (-13375737686445215, 10^27); (-12784852685266572, 10^28); (32605628580248922, 10^29); (23647571168618257, 10^30); (-79231351220311617, 10^31)]%Z.
Definition T_cLi4_d_cs : list (Z * Z) := [(-69444444444444444, 10^20); (16534391534391534, 10^22); (-10935444136502338, 10^24); (10438378493934049, 10^26); (-12165942300622435, 10^28); (16130006528350101, 10^30); (-2342881045287934, 10^31)]%Z.
Definition T_cLi4_d_hd : list (Z * Z) := [(10823232337111382, 10^16); (12020569031595943, 10^16); (82246703342411322, 10^17); (0, 1); (-1, 48)]%Z.
Definition T_cLi4_d_pi : Z * Z := (31415926535897932, 10^16)%Z.
Lemma cLi4_d_bf_eq e : cLi4_d_bf (NumR e) = Sq T_cLi4_d_bf. Proof. unfold cLi4_d_bf, Sq, T_cLi4_d_bf. cbn [map]. tab. Qed.
Lemma cLi4_d_cs_eq e : cLi4_d_cs (NumR e) = Sq T_cLi4_d_cs. Proof. unfold cLi4_d_cs, Sq, T_cLi4_d_cs. cbn [map]. tab. Qed.
Lemma ev_cLi4_d e z : snd z <> 0 ->
  cLi4_d (NumR e) (ofC e z) = ofC e (cval 4 (T_cLi4_d_hd ++ spread T_cLi4_d_cs) T_cLi4_d_bf (rq T_cLi4_d_pi) (rq (0, 1)%Z) (-1) z).
Proof.
  intros H. destruct (nonreal e z H) as [ZN EQ]. pose proof (nonreal1 z H) as ZO. unfold cLi4_d, cval. cbv zeta. rewrite skip2 by exact EQ. rewrite branch_log by exact ZN. rewrite ofC_arg, branch_unity. unfold Rltb. destruct (Rlt_dec (Cmod (Clog z) * Cmod (Clog z)) 1) as [HU|HU].
  - change (@pair (car (NumR e)) (car (NumR e)) (Some (ln (Cmod z))) (Some (Carg z))) with (ofC e (Clog z)).
    assert (W0 : Copp (Clog z) <> RtoC 0) by (apply Copp_ne, Clog_n0; assumption).
    rewrite Lm_Lc by lia. rewrite cLi4_d_cs_eq. cbn [Nat.sub Lc]. set (w := Clog z) in *. rewrite ofC_opp, pos_log_ok by exact W0.
    rewrite ofC_mul, chorner_ok by (unfold T_cLi4_d_cs; cbn [length]; lia). unfold T_cLi4_d_hd. cbn [map app]. evs. apply (f_equal (ofC e)). cbn [cpev]. rewrite !rq0, ?spread_ok.
    generalize (cpev (map rq T_cLi4_d_cs) (Cmult w w)); intros X.
    generalize (Clog (Copp w)); intros lw. absq. cbn [Cpow]. change (RtoC 0) with (RtoC 0). ring.
  - rewrite ofC_abs, branch_le1. unfold Rleb. destruct (Rle_dec (Cmod z) 1) as [H1|H1].
    + rewrite opp1p by exact ZO. rewrite cLi4_d_bf_eq. rewrite ?(lit_int _ 0). match goal with |- context [@pair ?A ?B (Some 0) (Some 0)] => change (@pair A B (Some 0) (Some 0)) with (ofC e (RtoC 0)) end.
      set (u := U z).
      unfold T_cLi4_d_bf. cbn [Num.aref nth Sq map]. evs. cbn [cpev]. rewrite rq0.
      rewrite rq1.
      apply (f_equal (ofC e)). absq. ring.
    + rewrite inv1p by assumption. rewrite cLi4_d_bf_eq. rewrite branch_pos. rewrite (litneg e 31415926535897932). rewrite lmz_ok. fold (rq T_cLi4_d_pi).
      set (u := U (Cinv z)).
      unfold T_cLi4_d_bf. cbn [Num.aref nth Sq map]. evs. cbn [cpev]. rewrite rq0.
      rewrite rqm1, Cm1.
      apply (f_equal (ofC e)). unfold T_cLi4_d_pi. cbn [restq]. set (Lz := lmz _ z).
      match goal with |- context [Cplus ?R0 _] => idtac end. absq. ring.
Qed.
(* src/cpp/Li4.cpp: the tables and constants of Model_LiC.cLi4_l *)
Definition T_cLi4_l_bf : list (Z * Z) := [(1, 1); (-7, 16); (116512345679012345679012345679012346, 10^36); (-198206018518518518518518518518518519, 10^37); (19279320987654320987654320987654321, 10^37); (-310570987654320987654320987654320988, 10^40); (-156240091148578352983924736435264456, 10^40); (848512354677320663715221538350790051, 10^42); (229096166031897114453593835470042743, 10^42); (-218326142185269169396153523137650122, 10^43); (-388282487917201557228066203807765146, 10^44); (544629210322033211825798588082320063, 10^45); (69608052106827254078772334134120812, 10^45); (-133757376864452151995780722036345205, 10^46); (-1278485268526657160414624636157417, 10^45); (326056285802489224287884181782170918, 10^48); (236475711686182573623095048124390137, 10^49); (-792313512203116170242999007113724954, 10^50); (-434529157099841872504973716264753844, 10^51); (192362700625359201161268755267526042, 10^51); (781241433319595467072229389687370732, 10^53); (-467180384480365552031762824287222012, 10^53)]%Z.
Definition T_cLi4_l_cs : list (Z * Z) := [(-694444444444444444444444444444444444, 10^39); (165343915343915343915343915343915344, 10^41); (-109354441365023375605386187396769407, 10^43); (104383784939340494896050451606007162, 10^45); (-121659423006224353025699827046628393, 10^47); (161300065283501012968488467709998678, 10^49); (-234288104528793396933245465250860001, 10^51); (364387716752943634635168923207929405, 10^53)]%Z.
Definition T_cLi4_l_hd : list (Z * Z) := [(10823232337111381915160036965411679, 10^34); (120205690315959428539973816151144999, 10^35); (822467033424113218236207583323012595, 10^36); (0, 1); (-1, 48)]%Z.
Definition T_cLi4_l_pi : Z * Z := (314159265358979323846264338327950288, 10^35)%Z.
Lemma cLi4_l_bf_eq e : cLi4_l_bf (NumR e) = Sq T_cLi4_l_bf. Proof. unfold cLi4_l_bf, Sq, T_cLi4_l_bf. cbn [map]. tab. Qed.
Lemma cLi4_l_cs_eq e : cLi4_l_cs (NumR e) = Sq T_cLi4_l_cs. Proof. unfold cLi4_l_cs, Sq, T_cLi4_l_cs. cbn [map]. tab. Qed.
Lemma ev_cLi4_l e z : ordinary z ->
  cLi4_l (NumR e) (ofC e z) = ofC e (cval 4 (T_cLi4_l_hd ++ spread T_cLi4_l_cs) T_cLi4_l_bf (rq T_cLi4_l_pi) (rq (0, 1)%Z) (-1) z).
Proof.
  intros H. destruct (ord_ne z H) as [ZN ZO]. pose proof (ord_tests e z H) as TS. unfold cLi4_l, cval. cbv zeta. rewrite skip3 by exact TS. rewrite branch_log by exact ZN. rewrite ofC_arg, branch_unity. unfold Rltb. destruct (Rlt_dec (Cmod (Clog z) * Cmod (Clog z)) 1) as [HU|HU].
  - change (@pair (car (NumR e)) (car (NumR e)) (Some (ln (Cmod z))) (Some (Carg z))) with (ofC e (Clog z)).
    assert (W0 : Copp (Clog z) <> RtoC 0) by (apply Copp_ne, Clog_n0; assumption).
    rewrite Lm_Lc by lia. rewrite cLi4_l_cs_eq. cbn [Nat.sub Lc]. set (w := Clog z) in *. rewrite ofC_opp, pos_log_ok by exact W0.
    rewrite ofC_mul, chorner_ok by (unfold T_cLi4_l_cs; cbn [length]; lia). unfold T_cLi4_l_hd. cbn [map app]. evs. apply (f_equal (ofC e)). cbn [cpev]. rewrite !rq0, ?spread_ok.
    generalize (cpev (map rq T_cLi4_l_cs) (Cmult w w)); intros X.
    generalize (Clog (Copp w)); intros lw. absq. cbn [Cpow]. change (RtoC 0) with (RtoC 0). ring.
  - rewrite ofC_abs, branch_le1. unfold Rleb. destruct (Rle_dec (Cmod z) 1) as [H1|H1].
    + rewrite opp1p by exact ZO. rewrite cLi4_l_bf_eq. rewrite ?(lit_int _ 0). match goal with |- context [@pair ?A ?B (Some 0) (Some 0)] => change (@pair A B (Some 0) (Some 0)) with (ofC e (RtoC 0)) end.
      set (u := U z).
      rewrite chorner_ok by (unfold T_cLi4_l_bf; cbn [length]; lia). evs. rewrite map_cons. cbn [cpev]. rewrite rq0. generalize (cpev (map rq T_cLi4_l_bf) u); intros X.
      rewrite rq1.
      apply (f_equal (ofC e)). absq. ring.
    + rewrite inv1p by assumption. rewrite cLi4_l_bf_eq. rewrite branch_pos. rewrite (litneg e 314159265358979323846264338327950288). rewrite lmz_ok. fold (rq T_cLi4_l_pi).
      set (u := U (Cinv z)).
      rewrite chorner_ok by (unfold T_cLi4_l_bf; cbn [length]; lia). evs. rewrite map_cons. cbn [cpev]. rewrite rq0. generalize (cpev (map rq T_cLi4_l_bf) u); intros X.
      rewrite rqm1, Cm1.
      apply (f_equal (ofC e)). unfold T_cLi4_l_pi. cbn [restq]. set (Lz := lmz _ z).
      match goal with |- context [Cplus ?R0 _] => idtac end. absq. ring.
Qed.
(* src/cpp/Li4.cpp: the tables and constants of Model_LiC.cLi4_q *)
Definition T_cLi4_q_bf : list (Z * Z) := [(1, 1); (-7, 16); (116512345679012345679012345679012346, 10^36); (-198206018518518518518518518518518519, 10^37); (19279320987654320987654320987654321, 10^37); (-310570987654320987654320987654320988, 10^40); (-156240091148578352983924736435264456, 10^40); (848512354677320663715221538350790051, 10^42); (229096166031897114453593835470042743, 10^42); (-218326142185269169396153523137650122, 10^43); (-388282487917201557228066203807765146, 10^44); (544629210322033211825798588082320063, 10^45); (69608052106827254078772334134120812, 10^45); (-133757376864452151995780722036345205, 10^46); (-1278485268526657160414624636157417, 10^45); (326056285802489224287884181782170918, 10^48); (236475711686182573623095048124390137, 10^49); (-792313512203116170242999007113724954, 10^50); (-434529157099841872504973716264753844, 10^51); (192362700625359201161268755267526042, 10^51); (781241433319595467072229389687370732, 10^53); (-467180384480365552031762824287222012, 10^53); (-134353443298128478562602226758937243, 10^54); (113568268513473432447646983759384846, 10^54); (211527562024325868475059834141917946, 10^56); (-27642026334746517388281729253731028, 10^55); (-270681766082400642561090595581950049, 10^58); (673720448286285721432671612656264303, 10^58); (132872654566838229758180090450125398, 10^60); (-16443773056367826467816763114888663, 10^58); (828360589993393411098296734003488096, 10^62); (401908484950693506997093150076214959, 10^61); (-457571384448487903823597343465369976, 10^63); (-983641090946151277583209749821167124, 10^63); (169003395560378510677295231219028521, 10^64); (241048055630598085046649041649017179, 10^64); (-542661270567141825013250340589290005, 10^66); (-591424295887417678643375999669283147, 10^66); (162321109010873707727111761439681785, 10^67); (145275954377402759461325873161579478, 10^67); (-465389937002573704417216829815072974, 10^69); (-357238626244413318154616242379067282, 10^69); (129761714880310295825962542732877943, 10^70); (879357407773938851103685229710271214, 10^71); (-354800202048240308911663975982519909, 10^72)]%Z.
Definition T_cLi4_q_cs : list (Z * Z) := [(-694444444444444444444444444444444444, 10^39); (165343915343915343915343915343915344, 10^41); (-109354441365023375605386187396769407, 10^43); (104383784939340494896050451606007162, 10^45); (-121659423006224353025699827046628393, 10^47); (161300065283501012968488467709998678, 10^49); (-234288104528793396933245465250860001, 10^51); (364387716752943634635168923207929405, 10^53); (-597748681166655845456412242441216036, 10^55); (102337130555150662198452683223504513, 10^56); (-181455956138347480737900283560680332, 10^58); (331302580384912709893344878064186841, 10^60); (-620097932653619404041449128072466986, 10^62); (118564508541733498204388623842798096, 10^63); (-230933574895902885743620757867807721, 10^65); (457154846962710278621075406449501719, 10^67); (-918043553394696104844086650056356358, 10^69); (186724930429686274238904009267803247, 10^70); (-384151865355610606630482668147264051, 10^72)]%Z.
Definition T_cLi4_q_hd : list (Z * Z) := [(10823232337111381915160036965411679, 10^34); (120205690315959428539973816151144999, 10^35); (822467033424113218236207583323012595, 10^36); (0, 1); (-1, 48)]%Z.
Definition T_cLi4_q_pi : Z * Z := (314159265358979323846264338327950288, 10^35)%Z.
Lemma cLi4_q_bf_eq e : cLi4_q_bf (NumR e) = Sq T_cLi4_q_bf. Proof. unfold cLi4_q_bf, Sq, T_cLi4_q_bf. cbn [map]. tab. Qed.
Lemma cLi4_q_cs_eq e : cLi4_q_cs (NumR e) = Sq T_cLi4_q_cs. Proof. unfold cLi4_q_cs, Sq, T_cLi4_q_cs. cbn [map]. tab. Qed.
Lemma ev_cLi4_q e z : ordinary z ->
  cLi4_q (NumR e) (ofC e z) = ofC e (cval 4 (T_cLi4_q_hd ++ spread T_cLi4_q_cs) T_cLi4_q_bf (rq T_cLi4_q_pi) (rq (0, 1)%Z) (-1) z).
Proof.
  intros H. destruct (ord_ne z H) as [ZN ZO]. pose proof (ord_tests e z H) as TS. unfold cLi4_q, cval. cbv zeta. rewrite skip3 by exact TS. rewrite branch_log by exact ZN. rewrite ofC_arg, branch_unity. unfold Rltb. destruct (Rlt_dec (Cmod (Clog z) * Cmod (Clog z)) 1) as [HU|HU].
  - change (@pair (car (NumR e)) (car (NumR e)) (Some (ln (Cmod z))) (Some (Carg z))) with (ofC e (Clog z)).
    assert (W0 : Copp (Clog z) <> RtoC 0) by (apply Copp_ne, Clog_n0; assumption).
    rewrite Lm_Lc by lia. rewrite cLi4_q_cs_eq. cbn [Nat.sub Lc]. set (w := Clog z) in *. rewrite ofC_opp, pos_log_ok by exact W0.
    rewrite ofC_mul, chorner_ok by (unfold T_cLi4_q_cs; cbn [length]; lia). unfold T_cLi4_q_hd. cbn [map app]. evs. apply (f_equal (ofC e)). cbn [cpev]. rewrite !rq0, ?spread_ok.
    generalize (cpev (map rq T_cLi4_q_cs) (Cmult w w)); intros X.
    generalize (Clog (Copp w)); intros lw. absq. cbn [Cpow]. change (RtoC 0) with (RtoC 0). ring.
  - rewrite ofC_abs, branch_le1. unfold Rleb. destruct (Rle_dec (Cmod z) 1) as [H1|H1].
    + rewrite opp1p by exact ZO. rewrite cLi4_q_bf_eq. rewrite ?(lit_int _ 0). match goal with |- context [@pair ?A ?B (Some 0) (Some 0)] => change (@pair A B (Some 0) (Some 0)) with (ofC e (RtoC 0)) end.
      set (u := U z).
      rewrite chorner_ok by (unfold T_cLi4_q_bf; cbn [length]; lia). evs. rewrite map_cons. cbn [cpev]. rewrite rq0. generalize (cpev (map rq T_cLi4_q_bf) u); intros X.
      rewrite rq1.
      apply (f_equal (ofC e)). absq. ring.
    + rewrite inv1p by assumption. rewrite cLi4_q_bf_eq. rewrite branch_pos. rewrite (litneg e 314159265358979323846264338327950288). rewrite lmz_ok. fold (rq T_cLi4_q_pi).
      set (u := U (Cinv z)).
      rewrite chorner_ok by (unfold T_cLi4_q_bf; cbn [length]; lia). evs. rewrite map_cons. cbn [cpev]. rewrite rq0. generalize (cpev (map rq T_cLi4_q_bf) u); intros X.
      rewrite rqm1, Cm1.
      apply (f_equal (ofC e)). unfold T_cLi4_q_pi. cbn [restq]. set (Lz := lmz _ z).
      match goal with |- context [Cplus ?R0 _] => idtac end. absq. ring.
Qed.
(* src/cpp/Li5.cpp: the tables and constants of Model_LiC.cLi5_d *)
Definition T_cLi5_d_bf : list (Z * Z) := [(1, 1); (-15, 32); (13953189300411523, 10^17); (-2863377700617284, 10^17); (40317412551440329, 10^19); (-33985018004115226, 10^20); (45445184621617666, 10^22); (23916808048569012, 10^22); (-12762692600122747, 10^23); (-31628984306505932, 10^24); (32848118445335192, 10^25); (47613713995660579, 10^26); (-8084689817190983, 10^26); (-72387648587737207, 10^28); (19439760115173968, 10^28); (10256978405977236, 10^29); (-4618055100988483, 10^29); (-1153585719647058, 10^30); (10903545401333394, 10^31)]%Z.
Definition T_cLi5_d_cs : list (Z * Z) := [(-11574074074074074, 10^20); (20667989417989418, 10^23); (-10935444136502338, 10^25); (86986487449450412, 10^28); (-86899587861588824, 10^30); (10081254080218813, 10^31)]%Z.
Definition T_cLi5_d_hd : list (Z * Z) := [(10369277551433699, 10^16); (10823232337111382, 10^16); (60102845157979714, 10^17); (27415567780803774, 10^17); (0, 1); (-1, 240)]%Z.
Definition T_cLi5_d_pi : Z * Z := (31415926535897932, 10^16)%Z.
Lemma cLi5_d_bf_eq e : cLi5_d_bf (NumR e) = Sq T_cLi5_d_bf. Proof. unfold cLi5_d_bf, Sq, T_cLi5_d_bf. cbn [map]. tab. Qed.
Lemma cLi5_d_cs_eq e : cLi5_d_cs (NumR e) = Sq T_cLi5_d_cs. Proof. unfold cLi5_d_cs, Sq, T_cLi5_d_cs. cbn [map]. tab. Qed.
Lemma ev_cLi5_d e z : ordinary z ->
  cLi5_d (NumR e) (ofC e z) = ofC e (cval 5 (T_cLi5_d_hd ++ spread T_cLi5_d_cs) T_cLi5_d_bf (rq T_cLi5_d_pi) (rq (0, 1)%Z) 1 z).
Proof.
  intros H. destruct (ord_ne z H) as [ZN ZO]. pose proof (ord_tests e z H) as TS. unfold cLi5_d, cval. cbv zeta. rewrite skip3 by exact TS. rewrite branch_log by exact ZN. rewrite ofC_arg, branch_unity. unfold Rltb. destruct (Rlt_dec (Cmod (Clog z) * Cmod (Clog z)) 1) as [HU|HU].
  - change (@pair (car (NumR e)) (car (NumR e)) (Some (ln (Cmod z))) (Some (Carg z))) with (ofC e (Clog z)).
    assert (W0 : Copp (Clog z) <> RtoC 0) by (apply Copp_ne, Clog_n0; assumption).
    rewrite Lm_Lc by lia. rewrite cLi5_d_cs_eq. cbn [Nat.sub Lc]. set (w := Clog z) in *. rewrite ofC_opp, pos_log_ok by exact W0.
    rewrite ofC_mul, chorner_ok by (unfold T_cLi5_d_cs; cbn [length]; lia). unfold T_cLi5_d_hd. cbn [map app]. evs. apply (f_equal (ofC e)). cbn [cpev]. rewrite !rq0, ?spread_ok.
    generalize (cpev (map rq T_cLi5_d_cs) (Cmult w w)); intros X.
    generalize (Clog (Copp w)); intros lw. absq. cbn [Cpow]. change (RtoC 0) with (RtoC 0). ring.
  - rewrite ofC_abs, branch_le1. unfold Rleb. destruct (Rle_dec (Cmod z) 1) as [H1|H1].
    + rewrite opp1p by exact ZO. rewrite cLi5_d_bf_eq. rewrite ?(lit_int _ 0). match goal with |- context [@pair ?A ?B (Some 0) (Some 0)] => change (@pair A B (Some 0) (Some 0)) with (ofC e (RtoC 0)) end.
      set (u := U z).
      unfold T_cLi5_d_bf. cbn [Num.aref nth Sq map]. evs. cbn [cpev]. rewrite rq0.
      apply (f_equal (ofC e)). absq. ring.
    + rewrite inv1p by assumption. rewrite cLi5_d_bf_eq. rewrite branch_pos. rewrite (litneg e 31415926535897932). rewrite lmz_ok. fold (rq T_cLi5_d_pi).
      set (u := U (Cinv z)).
      unfold T_cLi5_d_bf. cbn [Num.aref nth Sq map]. evs. cbn [cpev]. rewrite rq0.
      apply (f_equal (ofC e)). unfold T_cLi5_d_pi. cbn [restq]. set (Lz := lmz _ z).
      match goal with |- context [Cplus ?R0 _] => idtac end. absq. ring.
Qed.
(* src/cpp/Li5.cpp: the tables and constants of Model_LiC.cLi5_l *)
Definition T_cLi5_l_bf : list (Z * Z) := [(1, 1); (-15, 32); (139531893004115226337448559670781893, 10^36); (-286337770061728395061728395061728395, 10^37); (403174125514403292181069958847736626, 10^38); (-33985018004115226337448559670781893, 10^38); (454451846216176664909446003743133026, 10^41); (239168080485690118829088702752453967, 10^41); (-127626926001227465885443518981747128, 10^42); (-316289843065059324402567872795470007, 10^43); (328481184453351916215185742384719818, 10^44); (476137139956605790483191328977324967, 10^45); (-80846898171909830256460260362331749, 10^45); (-72387648587737206946829215837589758, 10^46); (194397601151739684930556492093599766, 10^47); (102569784059772359718813559433198981, 10^48); (-461805510098848301805820862410656158, 10^49); (-115358571964705800368425114834190972, 10^50); (109035454013333939879770883809662643, 10^50); (231481363172925263940797103190091493, 10^53); (-256699170432652921943348919933966693, 10^52)]%Z.
Definition T_cLi5_l_cs : list (Z * Z) := [(-115740740740740740740740740740740741, 10^39); (20667989417989417989417989417989418, 10^41); (-109354441365023375605386187396769407, 10^44); (869864874494504124133753763383393013, 10^47); (-868995878615888235897855907475917096, 10^49); (100812540802188133105305292318749173, 10^50); (-130160058071551887185136369583811112, 10^52)]%Z.
Definition T_cLi5_l_hd : list (Z * Z) := [(103692775514336992633136548645703417, 10^35); (10823232337111381915160036965411679, 10^34); (601028451579797142699869080755724995, 10^36); (274155677808037739412069194441004198, 10^36); (0, 1); (-1, 240)]%Z.
Definition T_cLi5_l_pi : Z * Z := (314159265358979323846264338327950288, 10^35)%Z.
Lemma cLi5_l_bf_eq e : cLi5_l_bf (NumR e) = Sq T_cLi5_l_bf. Proof. unfold cLi5_l_bf, Sq, T_cLi5_l_bf. cbn [map]. tab. Qed.
Lemma cLi5_l_cs_eq e : cLi5_l_cs (NumR e) = Sq T_cLi5_l_cs. Proof. unfold cLi5_l_cs, Sq, T_cLi5_l_cs. cbn [map]. tab. Qed.
Lemma ev_cLi5_l e z : ordinary z ->
  cLi5_l (NumR e) (ofC e z) = ofC e (cval 5 (T_cLi5_l_hd ++ spread T_cLi5_l_cs) T_cLi5_l_bf (rq T_cLi5_l_pi) (rq (0, 1)%Z) 1 z).
Proof.
  intros H. destruct (ord_ne z H) as [ZN ZO]. pose proof (ord_tests e z H) as TS. unfold cLi5_l, cval. cbv zeta. rewrite skip3 by exact TS. rewrite branch_log by exact ZN. rewrite ofC_arg, branch_unity. unfold Rltb. destruct (Rlt_dec (Cmod (Clog z) * Cmod (Clog z)) 1) as [HU|HU].
  - change (@pair (car (NumR e)) (car (NumR e)) (Some (ln (Cmod z))) (Some (Carg z))) with (ofC e (Clog z)).
    assert (W0 : Copp (Clog z) <> RtoC 0) by (apply Copp_ne, Clog_n0; assumption).
    rewrite Lm_Lc by lia. rewrite cLi5_l_cs_eq. cbn [Nat.sub Lc]. set (w := Clog z) in *. rewrite ofC_opp, pos_log_ok by exact W0.
    rewrite ofC_mul, chorner_ok by (unfold T_cLi5_l_cs; cbn [length]; lia). unfold T_cLi5_l_hd. cbn [map app]. evs. apply (f_equal (ofC e)). cbn [cpev]. rewrite !rq0, ?spread_ok.
    generalize (cpev (map rq T_cLi5_l_cs) (Cmult w w)); intros X.
    generalize (Clog (Copp w)); intros lw. absq. cbn [Cpow]. change (RtoC 0) with (RtoC 0). ring.
  - rewrite ofC_abs, branch_le1. unfold Rleb. destruct (Rle_dec (Cmod z) 1) as [H1|H1].
    + rewrite opp1p by exact ZO. rewrite cLi5_l_bf_eq. rewrite ?(lit_int _ 0). match goal with |- context [@pair ?A ?B (Some 0) (Some 0)] => change (@pair A B (Some 0) (Some 0)) with (ofC e (RtoC 0)) end.
      set (u := U z).
      rewrite chorner_ok by (unfold T_cLi5_l_bf; cbn [length]; lia). evs. rewrite map_cons. cbn [cpev]. rewrite rq0. generalize (cpev (map rq T_cLi5_l_bf) u); intros X.
      apply (f_equal (ofC e)). absq. ring.
    + rewrite inv1p by assumption. rewrite cLi5_l_bf_eq. rewrite branch_pos. rewrite (litneg e 314159265358979323846264338327950288). rewrite lmz_ok. fold (rq T_cLi5_l_pi).
      set (u := U (Cinv z)).
      rewrite chorner_ok by (unfold T_cLi5_l_bf; cbn [length]; lia). evs. rewrite map_cons. cbn [cpev]. rewrite rq0. generalize (cpev (map rq T_cLi5_l_bf) u); intros X.
      apply (f_equal (ofC e)). unfold T_cLi5_l_pi. cbn [restq]. set (Lz := lmz _ z).
      match goal with |- context [Cplus ?R0 _] => idtac end. absq. ring.
Qed.
(* src/cpp/Li5.cpp: the tables and constants of Model_LiC.cLi5_q *)
Definition T_cLi5_q_bf : list (Z * Z) := [(1, 1); (-15, 32); (139531893004115226337448559670781893, 10^36); (-286337770061728395061728395061728395, 10^37); (403174125514403292181069958847736626, 10^38); (-33985018004115226337448559670781893, 10^38); (454451846216176664909446003743133026, 10^41); (239168080485690118829088702752453967, 10^41); (-127626926001227465885443518981747128, 10^42); (-316289843065059324402567872795470007, 10^43); (328481184453351916215185742384719818, 10^44); (476137139956605790483191328977324967, 10^45); (-80846898171909830256460260362331749, 10^45); (-72387648587737206946829215837589758, 10^46); (194397601151739684930556492093599766, 10^47); (102569784059772359718813559433198981, 10^48); (-461805510098848301805820862410656158, 10^49); (-115358571964705800368425114834190972, 10^50); (109035454013333939879770883809662643, 10^50); (231481363172925263940797103190091493, 10^53); (-256699170432652921943348919933966693, 10^52); (457086206073149690144959626860139115, 10^54); (60366779613205705882356103311410709, 10^53); (-216776249440624129587941717218396578, 10^55); (-14194096615600165298332266882011213, 10^54); (750200095064138625532377521619527234, 10^57); (333870453950783971643715159254469304, 10^57); (-230600404426203476825215151352586388, 10^58); (-78581732456894818904499064631502735, 10^58); (666834530437388085486513704613056895, 10^60); (185091565409252971894649796883651603, 10^60); (-185915294451740855841031840576364891, 10^61); (-436297464803458904472660817437095794, 10^62); (506110760995292844822634895878109349, 10^63); (102919182497568782037888979300008731, 10^63); (-135513912210183166156877853283041765, 10^64); (-242940596129573826559241540956570701, 10^65); (358519739665037052115164738053066333, 10^66); (573796581610397206400846538673280837, 10^67); (-940035936245687345352774520389480989, 10^68); (-135590280493486311500090284171223034, 10^68); (244784384191528918377859141748058708, 10^69); (320528849130720958124170712217928968, 10^70); (-63398387818525482796415237594217452, 10^70); (-757925545801218291534870941639851689, 10^72)]%Z.
Definition T_cLi5_q_cs : list (Z * Z) := [(-115740740740740740740740740740740741, 10^39); (20667989417989417989417989417989418, 10^41); (-109354441365023375605386187396769407, 10^44); (869864874494504124133753763383393013, 10^47); (-868995878615888235897855907475917096, 10^49); (100812540802188133105305292318749173, 10^50); (-130160058071551887185136369583811112, 10^52); (182193858376471817317584461603964703, 10^54); (-271703945984843566116551019291461834, 10^56); (426404710646461092493552846764602135, 10^58); (-697907523609028772068847244464155123, 10^60); (118322350137468824961908885022923872, 10^61); (-206699310884539801347149709357488995, 10^63); (370514089192917181888714449508744051, 10^65); (-679216396752655546304766934905316826, 10^67); (126987457489641744061409835124861589, 10^68); (-241590408788077922327391223699041147, 10^70); (466812326074215685597260023169508118, 10^72)]%Z.
Definition T_cLi5_q_hd : list (Z * Z) := [(103692775514336992633136548645703417, 10^35); (10823232337111381915160036965411679, 10^34); (601028451579797142699869080755724995, 10^36); (274155677808037739412069194441004198, 10^36); (0, 1); (-1, 240)]%Z.
Definition T_cLi5_q_pi : Z * Z := (314159265358979323846264338327950288, 10^35)%Z.
Lemma cLi5_q_bf_eq e : cLi5_q_bf (NumR e) = Sq T_cLi5_q_bf. Proof. unfold cLi5_q_bf, Sq, T_cLi5_q_bf. cbn [map]. tab. Qed.
Lemma cLi5_q_cs_eq e : cLi5_q_cs (NumR e) = Sq T_cLi5_q_cs. Proof. unfold cLi5_q_cs, Sq, T_cLi5_q_cs. cbn [map]. tab. Qed.
Lemma ev_cLi5_q e z : ordinary z ->
  cLi5_q (NumR e) (ofC e z) = ofC e (cval 5 (T_cLi5_q_hd ++ spread T_cLi5_q_cs) T_cLi5_q_bf (rq T_cLi5_q_pi) (rq (0, 1)%Z) 1 z).
Proof.
  intros H. destruct (ord_ne z H) as [ZN ZO]. pose proof (ord_tests e z H) as TS. unfold cLi5_q, cval. cbv zeta. rewrite skip3 by exact TS. rewrite branch_log by exact ZN. rewrite ofC_arg, branch_unity. unfold Rltb. destruct (Rlt_dec (Cmod (Clog z) * Cmod (Clog z)) 1) as [HU|HU].
  - change (@pair (car (NumR e)) (car (NumR e)) (Some (ln (Cmod z))) (Some (Carg z))) with (ofC e (Clog z)).
    assert (W0 : Copp (Clog z) <> RtoC 0) by (apply Copp_ne, Clog_n0; assumption).
    rewrite Lm_Lc by lia. rewrite cLi5_q_cs_eq. cbn [Nat.sub Lc]. set (w := Clog z) in *. rewrite ofC_opp, pos_log_ok by exact W0.
    rewrite ofC_mul, chorner_ok by (unfold T_cLi5_q_cs; cbn [length]; lia). unfold T_cLi5_q_hd. cbn [map app]. evs. apply (f_equal (ofC e)). cbn [cpev]. rewrite !rq0, ?spread_ok.
    generalize (cpev (map rq T_cLi5_q_cs) (Cmult w w)); intros X.
    generalize (Clog (Copp w)); intros lw. absq. cbn [Cpow]. change (RtoC 0) with (RtoC 0). ring.
  - rewrite ofC_abs, branch_le1. unfold Rleb. destruct (Rle_dec (Cmod z) 1) as [H1|H1].
    + rewrite opp1p by exact ZO. rewrite cLi5_q_bf_eq. rewrite ?(lit_int _ 0). match goal with |- context [@pair ?A ?B (Some 0) (Some 0)] => change (@pair A B (Some 0) (Some 0)) with (ofC e (RtoC 0)) end.
      set (u := U z).
      rewrite chorner_ok by (unfold T_cLi5_q_bf; cbn [length]; lia). evs. rewrite map_cons. cbn [cpev]. rewrite rq0. generalize (cpev (map rq T_cLi5_q_bf) u); intros X.
      apply (f_equal (ofC e)). absq. ring.
    + rewrite inv1p by assumption. rewrite cLi5_q_bf_eq. rewrite branch_pos. rewrite (litneg e 314159265358979323846264338327950288). rewrite lmz_ok. fold (rq T_cLi5_q_pi).
      set (u := U (Cinv z)).
      rewrite chorner_ok by (unfold T_cLi5_q_bf; cbn [length]; lia). evs. rewrite map_cons. cbn [cpev]. rewrite rq0. generalize (cpev (map rq T_cLi5_q_bf) u); intros X.
      apply (f_equal (ofC e)). unfold T_cLi5_q_pi. cbn [restq]. set (Lz := lmz _ z).
      match goal with |- context [Cplus ?R0 _] => idtac end. absq. ring.
Qed.
(* src/cpp/Li6.cpp: the tables and constants of Model_LiC.cLi6_d *)
Definition T_cLi6_d_bf : list (Z * Z) := [(1, 1); (-31, 64); (15241340877914952, 10^17); (-34365555877057613, 10^18); (57174797239368999, 10^19); (-68180453746570645, 10^20); (49960361948734493, 10^21); (-49166051196039048, 10^23); (-30632975161302164, 10^23); (14414599270849095, 10^24); (37272438230924107, 10^25); (-37300867345487607, 10^26); (-51246526816085832, 10^27); (90541930956636683, 10^28); (67381882615512517, 10^29); (-21215831150303135, 10^29); (-68408811719011698, 10^31); (48691178462005581, 10^31)]%Z.
Definition T_cLi6_d_cs : list (Z * Z) := [(-16534391534391534, 10^21); (22964432686654909, 10^24); (-99413128513657614, 10^27); (66912682653423394, 10^29); (-57933058574392549, 10^31)]%Z.
Definition T_cLi6_d_hd : list (Z * Z) := [(10173430619844491, 10^16); (10369277551433699, 10^16); (5411616168555691, 10^16); (20034281719326571, 10^17); (68538919452009435, 10^18); (0, 1); (-1, 1440)]%Z.
Definition T_cLi6_d_pi : Z * Z := (31415926535897932, 10^16)%Z.
Lemma cLi6_d_bf_eq e : cLi6_d_bf (NumR e) = Sq T_cLi6_d_bf. Proof. unfold cLi6_d_bf, Sq, T_cLi6_d_bf. cbn [map]. tab. Qed.
Lemma cLi6_d_cs_eq e : cLi6_d_cs (NumR e) = Sq T_cLi6_d_cs. Proof. unfold cLi6_d_cs, Sq, T_cLi6_d_cs. cbn [map]. tab. Qed.
Lemma ev_cLi6_d e z : ordinary z ->
  cLi6_d (NumR e) (ofC e z) = ofC e (cval 6 (T_cLi6_d_hd ++ spread T_cLi6_d_cs) T_cLi6_d_bf (rq T_cLi6_d_pi) (rq (0, 1)%Z) (-1) z).
Proof.
  intros H. destruct (ord_ne z H) as [ZN ZO]. pose proof (ord_tests e z H) as TS. unfold cLi6_d, cval. cbv zeta. rewrite skip3 by exact TS. rewrite branch_log by exact ZN. rewrite ofC_arg, branch_unity. unfold Rltb. destruct (Rlt_dec (Cmod (Clog z) * Cmod (Clog z)) 1) as [HU|HU].
  - change (@pair (car (NumR e)) (car (NumR e)) (Some (ln (Cmod z))) (Some (Carg z))) with (ofC e (Clog z)).
    assert (W0 : Copp (Clog z) <> RtoC 0) by (apply Copp_ne, Clog_n0; assumption).
    rewrite Lm_Lc by lia. rewrite cLi6_d_cs_eq. cbn [Nat.sub Lc]. set (w := Clog z) in *. rewrite ofC_opp, pos_log_ok by exact W0.
    rewrite ofC_mul, chorner_ok by (unfold T_cLi6_d_cs; cbn [length]; lia). unfold T_cLi6_d_hd. cbn [map app]. evs. apply (f_equal (ofC e)). cbn [cpev]. rewrite !rq0, ?spread_ok.
    generalize (cpev (map rq T_cLi6_d_cs) (Cmult w w)); intros X.
    generalize (Clog (Copp w)); intros lw. absq. cbn [Cpow]. change (RtoC 0) with (RtoC 0). ring.
  - rewrite ofC_abs, branch_le1. unfold Rleb. destruct (Rle_dec (Cmod z) 1) as [H1|H1].
    + rewrite opp1p by exact ZO. rewrite cLi6_d_bf_eq. rewrite ?(lit_int _ 0). match goal with |- context [@pair ?A ?B (Some 0) (Some 0)] => change (@pair A B (Some 0) (Some 0)) with (ofC e (RtoC 0)) end.
      set (u := U z).
      unfold T_cLi6_d_bf. cbn [Num.aref nth Sq map]. evs. cbn [cpev]. rewrite rq0.
      rewrite rq1.
      apply (f_equal (ofC e)). absq. ring.
    + rewrite inv1p by assumption. rewrite cLi6_d_bf_eq. rewrite branch_pos. rewrite (litneg e 31415926535897932). rewrite lmz_ok. fold (rq T_cLi6_d_pi).
      set (u := U (Cinv z)).
      unfold T_cLi6_d_bf. cbn [Num.aref nth Sq map]. evs. cbn [cpev]. rewrite rq0.
      rewrite rqm1, Cm1.
      apply (f_equal (ofC e)). unfold T_cLi6_d_pi. cbn [restq]. set (Lz := lmz _ z).
      match goal with |- context [Cplus ?R0 _] => idtac end. absq. ring.
Qed.
(* src/cpp/Li6.cpp: the tables and constants of Model_LiC.cLi6_l *)
Definition T_cLi6_l_bf : list (Z * Z) := [(1, 1); (-31, 64); (152413408779149519890260631001371742, 10^36); (-343655558770576131687242798353909465, 10^37); (571747972393689986282578875171467764, 10^38); (-681804537465706447187928669410150892, 10^39); (499603619487344931145170169621327906, 10^40); (-491660511960390477202530822164616726, 10^42); (-306329751613021637853530304310404212, 10^42); (144145992708490953612537421448012923, 10^43); (372724382309241065768599245664598825, 10^44); (-373008673454876072077977229159261141, 10^45); (-512465268160858324340087646115722592, 10^46); (905419309566366828868797447620893807, 10^47); (673818826155125170776107544938009482, 10^48); (-21215831150303135318527968929660953, 10^47); (-684088117190116976639204518781909079, 10^50); (486911784620055813206387586512917456, 10^50); (-48439878499872504165088964747315942, 10^52); (-110271048491074909370430302576046237, 10^51); (333537969169393816624889411840735964, 10^53); (247353074886413529791540987487137046, 10^53)]%Z.
Definition T_cLi6_l_cs : list (Z * Z) := [(-165343915343915343915343915343915344, 10^40); (229644326866549088771310993533215755, 10^43); (-994131285136576141867147158152449158, 10^46); (669126826534233941641349048756456164, 10^48); (-579330585743925490598570604983944731, 10^50); (593014945895224312384148778345583373, 10^52)]%Z.
Definition T_cLi6_l_hd : list (Z * Z) := [(101734306198444913971451792979092053, 10^35); (103692775514336992633136548645703417, 10^35); (541161616855569095758001848270583951, 10^36); (200342817193265714233289693585241665, 10^36); (685389194520094348530172986102510496, 10^37); (0, 1); (-1, 1440)]%Z.
Definition T_cLi6_l_pi : Z * Z := (314159265358979323846264338327950288, 10^35)%Z.
Lemma cLi6_l_bf_eq e : cLi6_l_bf (NumR e) = Sq T_cLi6_l_bf. Proof. unfold cLi6_l_bf, Sq, T_cLi6_l_bf. cbn [map]. tab. Qed.
Lemma cLi6_l_cs_eq e : cLi6_l_cs (NumR e) = Sq T_cLi6_l_cs. Proof. unfold cLi6_l_cs, Sq, T_cLi6_l_cs. cbn [map]. tab. Qed.
Lemma ev_cLi6_l e z : ordinary z ->
  cLi6_l (NumR e) (ofC e z) = ofC e (cval 6 (T_cLi6_l_hd ++ spread T_cLi6_l_cs) T_cLi6_l_bf (rq T_cLi6_l_pi) (rq (0, 1)%Z) (-1) z).
Proof.
  intros H. destruct (ord_ne z H) as [ZN ZO]. pose proof (ord_tests e z H) as TS. unfold cLi6_l, cval. cbv zeta. rewrite skip3 by exact TS. rewrite branch_log by exact ZN. rewrite ofC_arg, branch_unity. unfold Rltb. destruct (Rlt_dec (Cmod (Clog z) * Cmod (Clog z)) 1) as [HU|HU].
  - change (@pair (car (NumR e)) (car (NumR e)) (Some (ln (Cmod z))) (Some (Carg z))) with (ofC e (Clog z)).
    assert (W0 : Copp (Clog z) <> RtoC 0) by (apply Copp_ne, Clog_n0; assumption).
    rewrite Lm_Lc by lia. rewrite cLi6_l_cs_eq. cbn [Nat.sub Lc]. set (w := Clog z) in *. rewrite ofC_opp, pos_log_ok by exact W0.
    rewrite ofC_mul, chorner_ok by (unfold T_cLi6_l_cs; cbn [length]; lia). unfold T_cLi6_l_hd. cbn [map app]. evs. apply (f_equal (ofC e)). cbn [cpev]. rewrite !rq0, ?spread_ok.
    generalize (cpev (map rq T_cLi6_l_cs) (Cmult w w)); intros X.
    generalize (Clog (Copp w)); intros lw. absq. cbn [Cpow]. change (RtoC 0) with (RtoC 0). ring.
  - rewrite ofC_abs, branch_le1. unfold Rleb. destruct (Rle_dec (Cmod z) 1) as [H1|H1].
    + rewrite opp1p by exact ZO. rewrite cLi6_l_bf_eq. rewrite ?(lit_int _ 0). match goal with |- context [@pair ?A ?B (Some 0) (Some 0)] => change (@pair A B (Some 0) (Some 0)) with (ofC e (RtoC 0)) end.
      set (u := U z).
      rewrite chorner_ok by (unfold T_cLi6_l_bf; cbn [length]; lia). evs. rewrite map_cons. cbn [cpev]. rewrite rq0. generalize (cpev (map rq T_cLi6_l_bf) u); intros X.
      rewrite rq1.
      apply (f_equal (ofC e)). absq. ring.
    + rewrite inv1p by assumption. rewrite cLi6_l_bf_eq. rewrite branch_pos. rewrite (litneg e 314159265358979323846264338327950288). rewrite lmz_ok. fold (rq T_cLi6_l_pi).
      set (u := U (Cinv z)).
      rewrite chorner_ok by (unfold T_cLi6_l_bf; cbn [length]; lia). evs. rewrite map_cons. cbn [cpev]. rewrite rq0. generalize (cpev (map rq T_cLi6_l_bf) u); intros X.
      rewrite rqm1, Cm1.
      apply (f_equal (ofC e)). unfold T_cLi6_l_pi. cbn [restq]. set (Lz := lmz _ z).
      match goal with |- context [Cplus ?R0 _] => idtac end. absq. ring.
Qed.
(* src/cpp/Li6.cpp: the tables and constants of Model_LiC.cLi6_q *)
Definition T_cLi6_q_bf : list (Z * Z) := [(1, 1); (-31, 64); (152413408779149519890260631001371742, 10^36); (-343655558770576131687242798353909465, 10^37); (571747972393689986282578875171467764, 10^38); (-681804537465706447187928669410150892, 10^39); (499603619487344931145170169621327906, 10^40); (-491660511960390477202530822164616726, 10^42); (-306329751613021637853530304310404212, 10^42); (144145992708490953612537421448012923, 10^43); (372724382309241065768599245664598825, 10^44); (-373008673454876072077977229159261141, 10^45); (-512465268160858324340087646115722592, 10^46); (905419309566366828868797447620893807, 10^47); (673818826155125170776107544938009482, 10^48); (-21215831150303135318527968929660953, 10^47); (-684088117190116976639204518781909079, 10^50); (486911784620055813206387586512917456, 10^50); (-48439878499872504165088964747315942, 10^52); (-110271048491074909370430302576046237, 10^51); (333537969169393816624889411840735964, 10^53); (247353074886413529791540987487137046, 10^53); (-143706164342324920216883687134737009, 10^54); (-550471103350981180614826435059791109, 10^55); (474677139173272249791309840662617185, 10^56); (121583871780681052243739817416294433, 10^56); (-141075524035618500414240309078008657, 10^57); (-266388312532683465965856437677118103, 10^58); (396676574286310079767900226081781935, 10^59); (578216973585436153112366193481125963, 10^60); (-107877780631642573172998876995922389, 10^60); (-124073970867569098990147736977589145, 10^61); (287041179178936017042609524684092346, 10^62); (26235553563029330616574752038360682, 10^62); (-752294854657541272615881214134337672, 10^64); (-544017883796246961820291930722306669, 10^65); (195025795325101663793862223381656999, 10^65); (109784942822051879961178213597012971, 10^66); (-501495835741630092074469585415763612, 10^67); (-21286737504392761053563380691739178, 10^67); (128159440165221259409319852281486752, 10^68); (38710844733047944162220456869760746, 10^69); (-325941253155837592741689642881678163, 10^70); (-625269198847740581093233860701356903, 10^72); (825794162051839801918004563317046685, 10^72)]%Z.
Definition T_cLi6_q_cs : list (Z * Z) := [(-165343915343915343915343915343915344, 10^40); (229644326866549088771310993533215755, 10^43); (-994131285136576141867147158152449158, 10^46); (669126826534233941641349048756456164, 10^48); (-579330585743925490598570604983944731, 10^50); (593014945895224312384148778345583373, 10^52); (-685052937218694143079665103072690062, 10^54); (867589801792722939607545055256974774, 10^56); (-118132150428192854833283051865852971, 10^57); (170561884258584436997421138705840854, 10^59); (-258484268003343989655128609060798194, 10^61); (408008103922306292972099603527323696, 10^63); (-666771970595289681764999062443512889, 10^65); (1122769967251264187541558937905285, 10^64); (-194061827643615870372790552830090522, 10^68); (343209344566599308274080635472598888, 10^70); (-619462586636097236736900573587284992, 10^72)]%Z.
Definition T_cLi6_q_hd : list (Z * Z) := [(101734306198444913971451792979092053, 10^35); (103692775514336992633136548645703417, 10^35); (541161616855569095758001848270583951, 10^36); (200342817193265714233289693585241665, 10^36); (685389194520094348530172986102510496, 10^37); (0, 1); (-1, 1440)]%Z.
Definition T_cLi6_q_pi : Z * Z := (314159265358979323846264338327950288, 10^35)%Z.
Lemma cLi6_q_bf_eq e : cLi6_q_bf (NumR e) = Sq T_cLi6_q_bf. Proof. unfold cLi6_q_bf, Sq, T_cLi6_q_bf. cbn [map]. tab. Qed.
Lemma cLi6_q_cs_eq e : cLi6_q_cs (NumR e) = Sq T_cLi6_q_cs. Proof. unfold cLi6_q_cs, Sq, T_cLi6_q_cs. cbn [map]. tab. Qed.
Lemma ev_cLi6_q e z : ordinary z ->
  cLi6_q (NumR e) (ofC e z) = ofC e (cval 6 (T_cLi6_q_hd ++ spread T_cLi6_q_cs) T_cLi6_q_bf (rq T_cLi6_q_pi) (rq (0, 1)%Z) (-1) z).
Proof.
  intros H. destruct (ord_ne z H) as [ZN ZO]. pose proof (ord_tests e z H) as TS. unfold cLi6_q, cval. cbv zeta. rewrite skip3 by exact TS. rewrite branch_log by exact ZN. rewrite ofC_arg, branch_unity. unfold Rltb. destruct (Rlt_dec (Cmod (Clog z) * Cmod (Clog z)) 1) as [HU|HU].
  - change (@pair (car (NumR e)) (car (NumR e)) (Some (ln (Cmod z))) (Some (Carg z))) with (ofC e (Clog z)).
    assert (W0 : Copp (Clog z) <> RtoC 0) by (apply Copp_ne, Clog_n0; assumption).
    rewrite Lm_Lc by lia. rewrite cLi6_q_cs_eq. cbn [Nat.sub Lc]. set (w := Clog z) in *. rewrite ofC_opp, pos_log_ok by exact W0.
    rewrite ofC_mul, chorner_ok by (unfold T_cLi6_q_cs; cbn [length]; lia). unfold T_cLi6_q_hd. cbn [map app]. evs. apply (f_equal (ofC e)). cbn [cpev]. rewrite !rq0, ?spread_ok.
    generalize (cpev (map rq T_cLi6_q_cs) (Cmult w w)); intros X.
    generalize (Clog (Copp w)); intros lw. absq. cbn [Cpow]. change (RtoC 0) with (RtoC 0). ring.
  - rewrite ofC_abs, branch_le1. unfold Rleb. destruct (Rle_dec (Cmod z) 1) as [H1|H1].
    + rewrite opp1p by exact ZO. rewrite cLi6_q_bf_eq. rewrite ?(lit_int _ 0). match goal with |- context [@pair ?A ?B (Some 0) (Some 0)] => change (@pair A B (Some 0) (Some 0)) with (ofC e (RtoC 0)) end.
      set (u := U z).
      rewrite chorner_ok by (unfold T_cLi6_q_bf; cbn [length]; lia). evs. rewrite map_cons. cbn [cpev]. rewrite rq0. generalize (cpev (map rq T_cLi6_q_bf) u); intros X.
      rewrite rq1.
      apply (f_equal (ofC e)). absq. ring.
    + rewrite inv1p by assumption. rewrite cLi6_q_bf_eq. rewrite branch_pos. rewrite (litneg e 314159265358979323846264338327950288). rewrite lmz_ok. fold (rq T_cLi6_q_pi).
      set (u := U (Cinv z)).
      rewrite chorner_ok by (unfold T_cLi6_q_bf; cbn [length]; lia). evs. rewrite map_cons. cbn [cpev]. rewrite rq0. generalize (cpev (map rq T_cLi6_q_bf) u); intros X.
      rewrite rqm1, Cm1.
      apply (f_equal (ofC e)). unfold T_cLi6_q_pi. cbn [restq]. set (Lz := lmz _ z).
      match goal with |- context [Cplus ?R0 _] => idtac end. absq. ring.
Qed.
