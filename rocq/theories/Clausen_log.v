(** * The logarithmic derivatives -cot(x/2)/2 + 1/x and tan(w/2)/2 against
      integer polynomials: error below 1e-38 on (0, 8/5).  Nothing here mentions the code. *)
From Coq Require Import Reals Lra Lia Psatz ZArith List Bool.
From Coquelicot Require Import Coquelicot.
From Interval Require Import Tactic.
From Bignums Require Import BigZ.
From Verif Require Import Cheb Cheb_big Poly_check Fourier Polylog Chain Clausen.
Import ListNotations.
Local Open Scope R_scope.

(** ** sin(x/2) = x/2 sigma(x^2), cos(x/2) = gamma(x^2) up to the Taylor remainder *)
Lemma pz_app l c y : pz (l ++ [c]) y = pz l y + y ^ length l * IZR c.
Proof. induction l as [|a l IH]; cbn [app pz length pow]; [ring|]. rewrite IH. ring. Qed.
Definition tz (o : nat) (M : Z) (m : nat) : list Z :=
  map (fun j => ((-1) ^ Z.of_nat j * (M / (4 ^ Z.of_nat j * factZ (2 * j + o))))%Z) (seq 0 m).
Definition tz_div (o : nat) (M : Z) (m : nat) : bool := forallb (fun j => (M mod (4 ^ Z.of_nat j * factZ (2 * j + o)) =? 0)%Z) (seq 0 m).
Lemma tz_length o M m : length (tz o M m) = m.
Proof. unfold tz. rewrite map_length, seq_length. reflexivity. Qed.
Lemma factZ_pos n : (0 < factZ n)%Z.
Proof. induction n as [|n IH]; [reflexivity|]. cbn [factZ]. nia. Qed.
Lemma tz_coef o M j : (M mod (4 ^ Z.of_nat j * factZ (2 * j + o)) = 0)%Z ->
  IZR ((-1) ^ Z.of_nat j * (M / (4 ^ Z.of_nat j * factZ (2 * j + o)))) = IZR M * ((-1) ^ j / (4 ^ j * INR (fact (2 * j + o)))).
Proof.
  intros H. set (d := (4 ^ Z.of_nat j * factZ (2 * j + o))%Z) in *.
  assert (dp : (0 < d)%Z) by (unfold d; apply Z.mul_pos_pos; [apply Z.pow_pos_nonneg; lia|apply factZ_pos]).
  assert (E : (M = d * (M / d))%Z) by (apply Z.div_exact; lia).
  assert (ED : IZR d = 4 ^ j * INR (fact (2 * j + o))) by (unfold d; rewrite mult_IZR, <- pow_IZR, factZ_ok; reflexivity).
  rewrite mult_IZR, <- pow_IZR. rewrite E at 2. rewrite mult_IZR, ED.
  assert (0 < 4 ^ j * INR (fact (2 * j + o))) by (rewrite <- ED; apply (IZR_lt 0); exact dp).
  change (IZR (-1)) with (-1). field. split; [apply INR_fact_neq_0|apply pow_nonzero; lra].
Qed.
Lemma cT_tz M m x : tz_div 0 M m = true -> IZR M * cT m (x / 2) = pz (tz 0 M m) (x * x).
Proof.
  unfold tz_div. intros H. induction m as [|m IH]; [cbn; ring|].
  rewrite seq_S, forallb_app, andb_true_iff in H. destruct H as [H1 H2]. cbn [forallb] in H2. rewrite andb_true_r, Z.eqb_eq in H2. rewrite Nat.add_0_l in H2.
  cbn [cT]. rewrite Rmult_plus_distr_l, (IH H1). unfold tz. rewrite (seq_S m 0), map_app. cbn [map]. rewrite pz_app. rewrite Nat.add_0_l.
  change (map _ (seq 0 m)) with (tz 0 M m). rewrite tz_length, tz_coef by exact H2. f_equal.
  rewrite Nat.add_0_r. replace ((x / 2) ^ (2 * m)) with ((x * x) ^ m / 4 ^ m).
  - pose proof (fact_pos (2 * m)). field. split; [lra|apply pow_nonzero; lra].
  - rewrite pow_mult. replace ((x / 2) ^ 2) with ((x * x) * / 4) by (simpl; field). rewrite (Rpow_mult_distr (x * x) (/ 4)), pow_inv. reflexivity.
Qed.
Lemma sT_tz M m x : tz_div 1 M m = true -> IZR M * sT m (x / 2) = x / 2 * pz (tz 1 M m) (x * x).
Proof.
  unfold tz_div. intros H. induction m as [|m IH]; [cbn; ring|].
  rewrite seq_S, forallb_app, andb_true_iff in H. destruct H as [H1 H2]. cbn [forallb] in H2. rewrite andb_true_r, Z.eqb_eq in H2. rewrite Nat.add_0_l in H2.
  cbn [sT]. rewrite Rmult_plus_distr_l, (IH H1). unfold tz. rewrite (seq_S m 0), map_app. cbn [map]. rewrite pz_app. rewrite Nat.add_0_l.
  change (map _ (seq 0 m)) with (tz 1 M m). rewrite tz_length, tz_coef by exact H2. rewrite Rmult_plus_distr_l. f_equal.
  replace ((x / 2) ^ (2 * m + 1)) with (x / 2 * ((x * x) ^ m / 4 ^ m)).
  - pose proof (fact_pos (2 * m + 1)). field. split; [lra|apply pow_nonzero; lra].
  - rewrite Nat.add_1_r. cbn [pow]. f_equal. rewrite pow_mult. replace ((x / 2) ^ 2) with ((x * x) * / 4) by (simpl; field). rewrite (Rpow_mult_distr (x * x) (/ 4)), pow_inv. reflexivity.
Qed.
Lemma rp0_pz s x : rp s 0 1 x = x * pz s (x * x).
Proof.
  enough (G : forall k, (1 <= k)%nat -> rp s 0 k x = x ^ (2 * k - 1) * pz s (x * x)). { rewrite (G 1%nat) by lia. change (2 * 1 - 1)%nat with 1%nat. ring. }
  induction s as [|a s IH]; intros k Hk; cbn [rp pz poch]; [ring|]. rewrite (IH (S k)) by lia. replace (2 * S k - 1)%nat with (2 + (2 * k - 1))%nat by lia.
  rewrite pow_add, Nat.add_0_r. field.
Qed.

(** the coefficients of the two expansions, times 10^70 *)
Definition sN : list Z := [
  833333333333333333333333333333333333333333333333333333333333333333333;
  13888888888888888888888888888888888888888888888888888888888888888889;
  330687830687830687830687830687830687830687830687830687830687830688;
  8267195767195767195767195767195767195767195767195767195767195767;
  208767569878680989792100903212014323125434236545347656458767570;
  5284190138687493184847682202179556676911174265671620168974666;
  133825365306846788328269809751291232772714254195735677217159;
  3389680296322582866830195391249442499572181074411596249961;
  85860620562778445641359054504256271339539561274865749699;
  2174868698558061873041516423865917899851791600154166084;
  55090028283602295152026526089022548778615827044688408;
  1395446468581252334070768626406354976391763666911100;
  35347070396294674716932299778037992147245945647149;
  895351742703754685040261131811274105162713924278;
  22679524523376830603109507388681660632203543297;
  574479066887220244526388198760701839962477669;
  14551724756148649018662648672713293357208890;
  368599494066531017818178247990866037444630;
  9336734257095044672032555152785623295444;
  236502241570062993455963519636983824007;
  5990671762482134304659912396819657826;
  151745488446829026171081313586471893;
  3843758125454188232229445290990232;
  97363530726466910352676212792505;
  2466247044200680957106400280289;
  62470767418207436931487567947;
  1582403024464491429751081707;
  40082736859489359685300122;
  1015307585556955631163071;
  25718041582418717499248;
  651445603523381493156;
  16501309906896524555;
  417983062853947589;
  10587634667702909]%Z.
Definition sF : list Z := [
  2500000000000000000000000000000000000000000000000000000000000000000000;
  208333333333333333333333333333333333333333333333333333333333333333333;
  20833333333333333333333333333333333333333333333333333333333333333333;
  2108134920634920634920634920634920634920634920634920634920634920635;
  213569223985890652557319223985890652557319223985890652557319223986;
  21638758617925284591951258617925284591951258617925284591951258618;
  2192460959822070933182044293155404266515377626488737599848710960;
  222142698219500468177716854965532214209462886711563960241208918;
  22507760656188430075762786624909251737760919211277132223288464;
  2280512945590519728524508084155204861837092377131654701032030;
  231064270899997957363030314454765543409794699221017723294094;
  23411705424378415377957110460474094805244543268955902596921;
  2372101704676295033208173486079282023804603993739982244621;
  240344152437725319087164190236574338549070961298533688026;
  24351954006503844207744991932155015853889565087254495735;
  2467368803942728403702740078151173933885165616291245880;
  249996727697656365042805629805502961541951612616124988;
  25329964357037748821112170572891379152677877810404824;
  2566461970273291926865392649953921707433223261684343;
  260036964601136233644055622257078261425242897320678;
  26347253044147810669978598591778314576701919960532;
  2669534864157243207966441487126117171081999457638;
  270480432210899255284133828846277088293982896622;
  27405397543699416084731030708222222887791705012;
  2776747317316441017867596497695448181488625648;
  281343324866187872947882199908230274607323707;
  28506038685312916292491633513418975859270995;
  2888265580550174765752140519732520226938409;
  292642487294767574471416749939911091293320;
  29650883196743643474199358706138607486520;
  3004262581534769938475193526585131111106;
  304395440733488177254424167577525478508;
  30841706350448098874358234311466056607;
  3124918192976806882724321407680668909;
  316620410097885352941327505717885794;
  32080354716440138374310699567149224;
  3250419511535767924456163059098549;
  329336352242953378216941496144154;
  33368749025705918249982109700958;
  3380961147948628932231540719449;
  342562985358912155753389285927;
  34708887148617803808619601878;
  3516745528806281917091511685;
  356320819547551547379874418;
  36102847192965768681240410;
  3657983210449743369996179;
  370631188626566743673835;
  37552790726410299427476;
  3804893205472896788077;
  385516283211202599190;
  39060966128353756416;
  3957703322338066376;
  400999185124505543;
  40629712076427827;
  4116650518631053;
  417103903189542;
  42261461173003;
  4281981268503;
  433855410459;
  43958743717;
  4453951945;
  451279683;
  45724192;
  4632829;
  469404;
  47561;
  4819;
  488]%Z.
Definition sD : Z := (10 ^ 70)%Z.
Definition sM : Z := Eval vm_compute in (4 ^ 18 * factZ 37)%Z.
Definition cz := Eval vm_compute in tz 0 sM 18.
Definition sz := Eval vm_compute in tz 1 sM 18.
Lemma cz_ok x : IZR sM * cT 18 (x / 2) = pz cz (x * x).
Proof. apply (cT_tz sM 18). vm_compute. reflexivity. Qed.
Lemma sz_ok x : IZR sM * sT 18 (x / 2) = x / 2 * pz sz (x * x).
Proof. apply (sT_tz sM 18). vm_compute. reflexivity. Qed.
Definition ivs := split_iv 4 0 64 25 4.

(** near 0: sigma - gamma - y s sigma = y B(y) *)
Definition brN : list bigZ := let bs := ofZl sz in bsub (bscal (BigZ.of_Z sD) (bsub bs (ofZl cz))) (BigZ.zero :: bmul (ofZl sN) bs).
Lemma brN_low : low0 1 (toZ brN) = true.
Proof. vm_compute. reflexivity. Qed.
Lemma brN_bound : pbound 0 1 64 25 ivs (skipn 1 brN) (sM * 10 ^ 31) 2 = true.
Proof. vm_compute. reflexivity. Qed.
Lemma sN_bound : pbound 0 1 64 25 ivs (bsub [BigZ.of_Z sD] (BigZ.zero :: ofZl sN)) (2 * sD) 1 = true.
Proof. vm_compute. reflexivity. Qed.
Lemma brN_pz y : pz (toZ brN) y = IZR sD * (pz sz y - pz cz y) - y * (pz sN y * pz sz y).
Proof.
  unfold brN. rewrite bsub_ok, pz_sub, bscal_ok, bsub_ok, !toZ_ofZl, BigZ.spec_of_Z, pz_scal, pz_sub. f_equal.
  cbn [toZ map]. change (map BigZ.to_Z (bmul (ofZl sN) (ofZl sz))) with (toZ (bmul (ofZl sN) (ofZl sz))). rewrite bmul_ok, !toZ_ofZl, BigZ.spec_0.
  cbn [pz]. rewrite pz_mul. change (IZR 0) with 0. ring.
Qed.

(** near pi: sigma/4 - s gamma *)
Definition brF : list bigZ := let bs := ofZl sz in bsub (bscal (BigZ.of_Z sD) bs) (bscal (BigZ.of_Z 4) (bmul (ofZl sF) (ofZl cz))).
Lemma brF_bound : pbound 0 1 64 25 ivs brF (sM * 10 ^ 31) 1 = true.
Proof. vm_compute. reflexivity. Qed.
Lemma sF_bound : pbound 0 1 64 25 ivs (ofZl sF) sD 1 = true.
Proof. vm_compute. reflexivity. Qed.
Lemma brF_pz y : pz (toZ brF) y = IZR sD * pz sz y - 4 * (pz sF y * pz cz y).
Proof.
  unfold brF. rewrite bsub_ok, pz_sub, !bscal_ok, bmul_ok, !toZ_ofZl, !BigZ.spec_of_Z, !pz_scal, pz_mul. ring.
Qed.

Lemma sD_pos : 0 < IZR sD. Proof. apply (IZR_lt 0). reflexivity. Qed.
Lemma sM_pos : 0 < IZR sM. Proof. apply (IZR_lt 0). reflexivity. Qed.
Lemma sD_eq : IZR sD = 10 ^ 70. Proof. unfold sD. rewrite pow_IZR. reflexivity. Qed.
Lemma rem_c t : 0 < t < 8 / 5 -> Rabs (cos (t / 2) - cT 18 (t / 2)) <= t * t * (/ 10 ^ 44).
Proof.
  intros Ht. destruct (sin_cos_taylor 18) as [C _]. eapply Rle_trans; [apply C; lra|]. change (2 * 18)%nat with 36%nat. fact_num.
  replace ((t / 2) ^ 36) with (t * t * ((t / 2) ^ 34 / 4)) by field. unfold Rdiv at 1. rewrite Rmult_assoc. apply Rmult_le_compat_l; [nra|].
  interval with (i_prec 60).
Qed.
Lemma rem_s t : 0 < t < 8 / 5 -> Rabs (sin (t / 2) - sT 18 (t / 2)) <= t * t * t * (/ 10 ^ 46).
Proof.
  intros Ht. destruct (sin_cos_taylor 18) as [_ C]. eapply Rle_trans; [apply C; lra|]. change (2 * 18 + 1)%nat with 37%nat. fact_num.
  replace ((t / 2) ^ 37) with (t * t * t * ((t / 2) ^ 34 / 8)) by field. unfold Rdiv at 1. rewrite Rmult_assoc. apply Rmult_le_compat_l; [nra|].
  interval with (i_prec 60).
Qed.
Lemma sin_half_low t : 0 < t < 8 / 5 -> t * (4 / 10) <= sin (t / 2).
Proof. intros Ht. pose proof (sin_sandwich (t / 2) ltac:(lra)) as S. assert (t * t <= 256 / 100) by nra. cbn [pow] in S. nra. Qed.
Lemma cos_half_low t : 0 < t < 8 / 5 -> 6 / 10 <= cos (t / 2).
Proof. intros Ht. interval. Qed.
Lemma sq_iv t : 0 < t < 8 / 5 -> IZR 0 / IZR 1 <= t * t <= IZR 64 / IZR 25.
Proof. intros Ht. split; [nra|]. unfold Rdiv. nra. Qed.

Theorem cot_err t : 0 < t < 8 / 5 -> Rabs (- (/ 2 * (cos (t / 2) / sin (t / 2))) + / t - rp sN 0 1 t / IZR sD) <= / 10 ^ 38 * t ^ 1.
Proof.
  intros Ht. pose proof sD_pos as HD. pose proof sM_pos as HM. pose proof (sq_iv t Ht) as Hy. pose proof (sin_half_low t Ht) as SL.
  pose proof (rem_c t Ht) as RC. pose proof (rem_s t Ht) as RS. pose proof (cz_ok t) as CZ. pose proof (sz_ok t) as SZ.
  pose proof (brN_pz (t * t)) as BP. rewrite (low0_ok 1 _ _ brN_low) in BP. 
  assert (BB : Rabs (pz (skipn 1 (toZ brN)) (t * t)) <= IZR (sM * 10 ^ 31) / IZR 2).
  { replace (skipn 1 (toZ brN)) with (toZ (skipn 1 brN)) by (unfold toZ; destruct brN; reflexivity). exact (pbound_ok _ _ _ _ _ _ _ _ brN_bound (t * t) Hy). }
  pose proof (pbound_ok _ _ _ _ _ _ _ _ sN_bound (t * t) Hy) as SB.
  replace (pz (toZ (bsub [BigZ.of_Z sD] (BigZ.zero :: ofZl sN))) (t * t)) with (IZR sD - t * t * pz sN (t * t)) in SB.
  2: { rewrite bsub_ok, pz_sub. cbn [toZ map]. change (map BigZ.to_Z (ofZl sN)) with (toZ (ofZl sN)). rewrite toZ_ofZl, BigZ.spec_of_Z, BigZ.spec_0. cbn [pz]. change (IZR 0) with 0. ring. }
  rewrite rp0_pz. set (s := pz sN (t * t)) in *. set (b := pz (skipn 1 (toZ brN)) (t * t)) in *. clearbody b s.
  set (sg := pz sz (t * t)) in *. set (gm := pz cz (t * t)) in *. clearbody sg gm.
  rewrite !mult_IZR in BB.
  replace (IZR (10 ^ 31)) with (10 ^ 31) in BB by (rewrite pow_IZR; reflexivity). 
  rewrite sD_eq in *. set (D := 10 ^ 70) in *. set (M := IZR sM) in *. rewrite pow_1 in *.
  set (sn := sin (t / 2)) in *. set (cs := cos (t / 2)) in *. set (ST := sT 18 (t / 2)) in *. set (CT := cT 18 (t / 2)) in *. clearbody sn cs ST CT.
  rewrite mult_IZR, sD_eq in SB. fold D in SB.
  (* bracket *)
  assert (E : - (/ 2 * (cs / sn)) + / t - t * s / D = ((t * t * t) * (b / (M * D)) - t * (cs - CT) + 2 * (sn - ST) * ((D - t * t * s) / D)) * / (2 * t * sn)).
  { assert (sg = 2 * M * ST / t) by (rewrite Rmult_assoc, SZ; field; lra). assert (gm = M * CT) by (symmetry; exact CZ). subst sg gm.
    assert (EB : b = (D * (2 * M * ST / t - M * CT) - t * t * (s * (2 * M * ST / t))) / (t * t)) by (rewrite <- BP; field; lra).
    rewrite EB. field. repeat split; lra. }
  rewrite E, Rabs_mult, (Rabs_pos_eq (/ _)) by (left; apply Rinv_0_lt_compat; nra).
  apply (Rmult_le_reg_r (2 * t * sn)); [nra|]. rewrite Rmult_assoc, Rinv_l, Rmult_1_r by nra.
  assert (T3 : 0 < t * t * t) by (apply Rmult_lt_0_compat; nra).
  assert (B1 : Rabs (t * t * t * (b / (M * D))) <= t * t * t * (/ 10 ^ 39 / 2)).
  { rewrite Rabs_mult, (Rabs_pos_eq (t * t * t)) by lra. apply Rmult_le_compat_l; [lra|]. unfold Rdiv at 1. rewrite Rabs_mult, (Rabs_pos_eq (/ _)) by (left; apply Rinv_0_lt_compat; nra).
    apply (Rmult_le_reg_r (M * D)); [nra|]. rewrite Rmult_assoc, Rinv_l, Rmult_1_r by nra.
    eapply Rle_trans; [exact BB|]. right. unfold D. field. }
  assert (B2 : Rabs (t * (cs - CT)) <= t * t * t * (/ 10 ^ 44)).
  { rewrite Rabs_mult, (Rabs_pos_eq t) by lra. replace (t * t * t * / 10 ^ 44) with (t * (t * t * / 10 ^ 44)) by ring. apply Rmult_le_compat_l; [lra|exact RC]. }
  assert (B3 : Rabs (2 * (sn - ST) * ((D - t * t * s) / D)) <= 4 * (t * t * t * / 10 ^ 46)).
  { rewrite Rabs_mult. replace (4 * (t * t * t * / 10 ^ 46)) with (2 * (t * t * t * / 10 ^ 46) * 2) by ring. apply Rmult_le_compat; try apply Rabs_pos.
    - rewrite Rabs_mult, (Rabs_pos_eq 2) by lra. lra.
    - unfold Rdiv. rewrite Rabs_mult, (Rabs_pos_eq (/ D)) by (left; apply Rinv_0_lt_compat; lra). apply (Rmult_le_reg_r D); [lra|]. rewrite Rmult_assoc, Rinv_l, Rmult_1_r by lra. lra. }
  eapply Rle_trans; [apply Rabs_triang|]. eapply Rle_trans; [apply Rplus_le_compat_r, Rabs_triang|]. rewrite Rabs_Ropp.
  apply Rle_trans with (/ 10 ^ 38 * t * (2 * t * (t * (4 / 10)))); [|apply Rmult_le_compat_l; [|nra]; apply Rmult_le_pos; [|lra]; lra].
  replace (/ 10 ^ 38 * t * (2 * t * (t * (4 / 10)))) with (t * t * t * (8 / 10 * / 10 ^ 38)) by field. lra.
Qed.
Theorem tan_err t : 0 < t < 8 / 5 -> Rabs (/ 2 * (sin (t / 2) / cos (t / 2)) - rp sF 0 1 t / IZR sD) <= / 10 ^ 38 * t ^ 1.
Proof.
  intros Ht. pose proof sD_pos as HD. pose proof sM_pos as HM. pose proof (sq_iv t Ht) as Hy. pose proof (cos_half_low t Ht) as SL.
  pose proof (rem_c t Ht) as RC. pose proof (rem_s t Ht) as RS. pose proof (cz_ok t) as CZ. pose proof (sz_ok t) as SZ.
  pose proof (brF_pz (t * t)) as BP. 
  pose proof (pbound_ok _ _ _ _ _ _ _ _ brF_bound (t * t) Hy) as BB.
  pose proof (pbound_ok _ _ _ _ _ _ _ _ sF_bound (t * t) Hy) as SB. rewrite toZ_ofZl in SB.
  rewrite rp0_pz. set (s := pz sF (t * t)) in *. set (b := pz (toZ brF) (t * t)) in *. clearbody b s.
  set (sg := pz sz (t * t)) in *. set (gm := pz cz (t * t)) in *. clearbody sg gm.
  rewrite !mult_IZR in BB. replace (IZR (10 ^ 31)) with (10 ^ 31) in BB by (rewrite pow_IZR; reflexivity). 
  rewrite sD_eq in *. set (D := 10 ^ 70) in *. set (M := IZR sM) in *. rewrite pow_1 in *.
  set (sn := sin (t / 2)) in *. set (cs := cos (t / 2)) in *. set (ST := sT 18 (t / 2)) in *. set (CT := cT 18 (t / 2)) in *. clearbody sn cs ST CT.
  assert (E : / 2 * (sn / cs) - t * s / D = (t * (b / (4 * M * D)) + / 2 * (sn - ST) - t * (cs - CT) * (s / D)) * / cs).
  { assert (sg = 2 * M * ST / t) by (rewrite Rmult_assoc, SZ; field; lra). assert (gm = M * CT) by (symmetry; exact CZ). subst sg gm.
    rewrite BP. field. repeat split; lra. }
  rewrite E, Rabs_mult, (Rabs_pos_eq (/ cs)) by (left; apply Rinv_0_lt_compat; nra).
  apply (Rmult_le_reg_r cs); [nra|]. rewrite Rmult_assoc, Rinv_l, Rmult_1_r by nra.
  assert (T3 : 0 < t * t) by nra.
  assert (B1 : Rabs (t * (b / (4 * M * D))) <= t * (/ 10 ^ 39 / 4)).
  { rewrite Rabs_mult, (Rabs_pos_eq t) by lra. apply Rmult_le_compat_l; [lra|]. unfold Rdiv at 1. rewrite Rabs_mult, (Rabs_pos_eq (/ _)) by (left; apply Rinv_0_lt_compat; nra).
    apply (Rmult_le_reg_r (4 * M * D)); [nra|]. rewrite Rmult_assoc, Rinv_l, Rmult_1_r by nra.
    eapply Rle_trans; [exact BB|]. right. unfold D. field. }
  assert (T2 : t * t <= 256 / 100) by (unfold Rdiv in *; nra).
  assert (B2 : Rabs (t * (cs - CT) * (s / D)) <= t * (256 / 100 * / 10 ^ 44)).
  { rewrite Rabs_mult. replace (t * (256 / 100 * / 10 ^ 44)) with (t * (256 / 100 * / 10 ^ 44) * 1) by ring. apply Rmult_le_compat; try apply Rabs_pos.
    - rewrite Rabs_mult, (Rabs_pos_eq t) by lra. apply Rmult_le_compat_l; [lra|]. eapply Rle_trans; [exact RC|]. apply Rmult_le_compat_r; lra.
    - unfold Rdiv. rewrite Rabs_mult, (Rabs_pos_eq (/ D)) by (left; apply Rinv_0_lt_compat; lra). apply (Rmult_le_reg_r D); [lra|]. rewrite Rmult_assoc, Rinv_l, Rmult_1_r by lra. lra. }
  assert (B3 : Rabs (/ 2 * (sn - ST)) <= t * (256 / 100 * / 10 ^ 46)).
  { rewrite Rabs_mult, (Rabs_pos_eq (/ 2)) by lra. assert (t * t * t * / 10 ^ 46 <= t * (256 / 100 * / 10 ^ 46)). { replace (t * t * t * / 10 ^ 46) with (t * (t * t * / 10 ^ 46)) by ring. apply Rmult_le_compat_l; [lra|]. apply Rmult_le_compat_r; lra. }
    pose proof (Rabs_pos (sn - ST)). lra. }
  unfold Rminus at 1. eapply Rle_trans; [apply Rabs_triang|]. eapply Rle_trans; [apply Rplus_le_compat_r, Rabs_triang|]. rewrite Rabs_Ropp.
  apply Rle_trans with (/ 10 ^ 38 * t * (6 / 10)); [|apply Rmult_le_compat_l; [|lra]; apply Rmult_le_pos; lra].
  lra.
Qed.

(** ** the expansions of the Clausen functions *)
Theorem Acl_near m x : 0 < x < 8 / 5 -> Rabs (Acl m x - nearR sN (IZR sD) m x) <= / 10 ^ 38 / poch 2 (S m) * x ^ (2 + m).
Proof.
  intros Hx. replace (2 + m)%nat with (1 + S m)%nat by lia. pose proof PI2_3_2.
  apply (near_bound sN (IZR sD) ltac:(pose proof sD_pos; lra) (/ 10 ^ 38) 1 (8 / 5)); [lra|exact cot_err|exact Hx].
Qed.
Theorem Bcl_far m x : 0 < x < 8 / 5 -> Rabs (Bcl m x - farR sF (IZR sD) m x) <= / 10 ^ 38 / poch 2 (S m) * x ^ (2 + m).
Proof.
  intros Hx. replace (2 + m)%nat with (1 + S m)%nat by lia. pose proof PI2_3_2.
  apply (far_bound sF (IZR sD) (/ 10 ^ 38) 1 (8 / 5)); [lra|exact tan_err|exact Hx].
Qed.
