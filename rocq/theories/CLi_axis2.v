(** * Accuracy of the complex Li3 .. Li6 code on the real axis, exact arithmetic *)
From Coq Require Import ZArith Reals List Bool Lra Lia Psatz.
From Coquelicot Require Import Coquelicot.
From Interval Require Import Tactic.
From Verif Require Import Num NumR Spec Eval_R Consts Cplx Ccalc CLi CLi_disc CLi_inv Cpoly CLi_unity CLi_T Polylog Clausen CLi_ref CLi_region Rest CLi_code CLi_eval CLi_dev CLi_rest CLi_acc CLi_axis.
Import ListNotations.
Local Open Scope R_scope.

(** [closeR n eps v x]: v approximates Li_n at the real point x; on the cut x > 1 the value from below *)
Definition closeR (n : nat) (eps : R) (v : C) (x : R) : Prop :=
  (-1 <= x <= 1 -> Cmod (Cminus v (RtoC (ReLi n x))) <= eps * Rabs x) /\
  (x < -1 -> Cmod (Cminus v (RtoC (ReLi n x))) <= eps * (1 + ln (- x)) ^ n) /\
  (1 < x -> Cmod (Cminus v (low n x)) <= eps * (1 + Cmod (ln x, PI)) ^ n).
Section A.
Variables (n : nat) (Ul Tl : list (Z * Z)) (p z2 sg d cU cT cR eps : R).
Hypothesis Hn : (3 <= n <= 6)%nat.
Hypothesis HU : forall w, Cmod w <= 1 -> Cmod (Cminus (cpev (map rq Ul) w) (cpev (IG (zl DD bz) n) w)) <= cU.
Hypothesis HT : forall u, Cmod u <= 11 / 10 -> Cmod (Cminus (cpev (map rq Tl) u) (cpev (zl DD (tl (qz n))) u)) <= cT.
Hypothesis Hp : Rabs (p - PI) <= d.
Hypothesis Hd : d <= 1.
Hypothesis HR : Bd d (rlist n p z2) (rlist n PI (PI * PI / 6)) <= cR.
Hypothesis Hs : sg = - (-1) ^ n.
Hypothesis E1 : 3 * (cU + / 10 ^ 37) <= eps.
Hypothesis E2 : cR + 2 * cT + / 10 ^ 37 <= eps.
Lemma I37 : 0 < / 10 ^ 37. Proof. apply Rinv_0_lt_compat, pow_lt; lra. Qed.
Lemma cT0 : 0 <= cT. Proof. eapply Rle_trans; [apply Cmod_ge_0|apply (HT (RtoC 0)); rewrite Cmod_0; lra]. Qed.
Lemma cU0 : 0 <= cU. Proof. eapply Rle_trans; [apply Cmod_ge_0|apply (HU (RtoC 0)); rewrite Cmod_0; lra]. Qed.
Lemma cR0 : 0 <= cR.
Proof.
  pose proof (rest_dev_l n p z2 d cR (RtoC 1) ltac:(lia) Hp Hd HR) as R. set (M := 1 + Cmod (lmz PI (RtoC 1))) in *. assert (0 <= cR * M ^ n) by (eapply Rle_trans; [apply Cmod_ge_0|exact R]).
  assert (1 <= M) by (unfold M; pose proof (Cmod_ge_0 (lmz PI (RtoC 1))); lra). assert (0 < M ^ n) by (apply pow_lt; lra). nra.
Qed.
(** the branch near 1 *)
Lemma near1 x T : 0 < x -> x <> 1 -> Cmod (Clog (RtoC x)) <= 1 -> (x < 1 -> T = RtoC (ReLi n x)) -> (1 < x -> T = low n x) ->
  Cmod (Cminus (Cplus (cpev (map rq Ul) (Clog (RtoC x))) (Lm n (Clog (RtoC x)))) T) <= cU + / 10 ^ 37 /\ / 3 <= x.
Proof.
  intros X0 X1 W T1 T2. rewrite Clog_real in * by exact X0. set (s := ln x) in *. pose proof (HU _ W) as A. rewrite Cmod_R in W. assert (S1 : -1 <= s <= 1) by (unfold Rabs in W; destruct (Rcase_abs s); lra).
  assert (EX : exp s = x) by (apply exp_ln, X0). assert (SN : s <> 0) by (intros E; apply X1; rewrite <- EX, E; apply exp_0). split.
  - assert (B : Cmod (Cminus (Cminus T (cpev (IG (zl DD bz) n) (RtoC s))) (Lm n (RtoC s))) <= / 10 ^ 37).
    { destruct n as [|m]; [lia|]. destruct (Rlt_dec s 0) as [N0|N0].
      - assert (L1 : x < 1) by (rewrite <- EX, <- exp_0; apply exp_increasing, N0). rewrite (T1 L1). pose proof (unity_left m s ltac:(lia) ltac:(lra)) as K. unfold EU in K. change (s, 0) with (RtoC s) in K.
        replace (Cexp (RtoC s)) with (RtoC x) in K by (unfold Cexp, RtoC; cbn [fst snd]; rewrite cos_0, sin_0, EX; f_equal; ring). rewrite CLi_real in K by (lia || exact L1). exact K.
      - assert (L1 : 1 < x) by (rewrite <- EX, <- exp_0; apply exp_increasing; lra). rewrite (T2 L1). pose proof (unity_right m s ltac:(lia) ltac:(lra)) as K. rewrite EX in K. exact K. }
    set (a := cpev (map rq Ul) (RtoC s)) in *. set (b := cpev (IG (zl DD bz) n) (RtoC s)) in *. set (l := Lm n (RtoC s)) in *.
    replace (Cminus (Cplus a l) T) with (Cminus (Cminus a b) (Cminus (Cminus T b) l)) by ring. eapply Rle_trans; [apply Cmod_triangle|]. rewrite Cmod_opp. lra.
  - rewrite <- EX. apply Rle_trans with (exp (- 1)); [interval|]. apply exp_mono. lra.
Qed.
Theorem cval_real x : x <> 0 -> x <> 1 -> closeR n eps (cval n Ul Tl p z2 sg (RtoC x)) x.
Proof.
  intros X0 X1. set (z := RtoC x). pose proof cT0 as cT0. pose proof cU0 as cU0. pose proof cR0 as cR0. pose proof I37 as I0.
  assert (Z0 : z <> RtoC 0) by (apply RtoC_neq, X0). assert (ZM : Cmod z = Rabs x) by apply Cmod_R.
  assert (CL : Clog z = if Rlt_dec 0 x then RtoC (ln x) else (ln (- x), PI)).
  { unfold z. destruct (Rlt_dec 0 x) as [P|P]; [apply Clog_real, P|]. replace x with (- - x) at 1 by ring. apply Clog_mreal. lra. }
  assert (LM : forall q, lmz q z = if Rlt_dec 0 x then (ln x, q) else (ln (- x), PI - q)).
  { intros q. unfold lmz. assert (CA : Carg z = snd (Clog z)) by reflexivity. rewrite CA, CL, ZM. pose proof PI_RGT_0. destruct (Rlt_dec 0 x) as [P|P]; cbn [snd RtoC].
    - destruct (Rlt_dec 0 0); [lra|]. rewrite Rabs_pos_eq by lra. f_equal. ring.
    - destruct (Rlt_dec 0 PI); [|lra]. rewrite Rabs_left by lra. reflexivity. }
  assert (PG : forall q M, 1 <= M -> 0 <= q -> q <= q * M ^ n) by (intros q M HM Hq; rewrite <- (Rmult_1_r q) at 1; apply Rmult_le_compat_l; [exact Hq|apply pow_R1_Rle, HM]).
  unfold cval. destruct (Rlt_dec (Cmod (Clog z) * Cmod (Clog z)) 1) as [B|B].
  - assert (W1 : Cmod (Clog z) <= 1) by (pose proof (Cmod_ge_0 (Clog z)); nra).
    assert (XP : 0 < x). { apply Rnot_le_lt. intros Q. rewrite CL in W1. destruct (Rlt_dec 0 x); [lra|]. pose proof (Cmod_snd (ln (- x), PI)) as K. cbn [snd] in K. rewrite Rabs_pos_eq in K by (pose proof PI_RGT_0; lra). assert (3 < PI) by interval. lra. }
    split; [|split]; intros HX.
    + destruct (near1 x (RtoC (ReLi n x)) XP X1 W1 ltac:(reflexivity) ltac:(intros; lra)) as [K K3]. eapply Rle_trans; [exact K|]. rewrite Rabs_pos_eq by lra. apply Rle_trans with (eps * / 3); [lra|]. apply Rmult_le_compat_l; lra.
    + lra.
    + destruct (near1 x (low n x) XP X1 W1 ltac:(intros; lra) ltac:(reflexivity)) as [K K3]. eapply Rle_trans; [exact K|]. apply Rle_trans with eps; [lra|]. apply PG; [pose proof (Cmod_ge_0 (ln x, PI))|]; lra.
  - apply Rnot_lt_le in B. assert (W1 : 1 <= Cmod (Clog z)) by (pose proof (Cmod_ge_0 (Clog z)); nra).
    destruct (Rle_dec (Cmod z) 1) as [L1|L1].
    + assert (XA : -1 <= x <= 1) by (rewrite ZM in L1; unfold Rabs in L1; destruct (Rcase_abs x); lra). split; [|split]; intros HX; try lra.
      rewrite <- CLi_real by (lia || lra). fold z. rewrite <- ZM. eapply Rle_trans; [apply T_any; [lia|apply regionB_good; assumption|exact HT]|]. apply Rmult_le_compat_r; [apply Cmod_ge_0|lra].
    + apply Rnot_le_lt in L1. set (y := Cinv z). assert (YR : y = RtoC (/ x)) by (unfold y, z; rewrite RtoC_inv by exact X0; reflexivity).
      assert (XI : Rabs (/ x) <= 1) by (rewrite Rabs_inv, <- Rinv_1; apply Rinv_le_contravar; lra).
      assert (YM : Cmod y <= 1) by (rewrite YR, Cmod_R; exact XI).
      assert (G : good (11 / 10) y).
      { apply regionB_good; [exact YM| |rewrite YR; apply RtoC_neq, Rinv_neq_0_compat, X0]. rewrite YR. destruct (Rlt_dec 0 x) as [P|P].
        - rewrite Clog_real by (apply Rinv_0_lt_compat, P). rewrite ln_Rinv, Cmod_R, Rabs_Ropp by exact P. rewrite CL, Cmod_R in W1. exact W1.
        - replace (/ x) with (- / (- x)) by (field; exact X0). rewrite Clog_mreal by (apply Rinv_0_lt_compat; lra). pose proof (Cmod_snd (ln (/ - x), PI)) as K. cbn [snd] in K. rewrite Rabs_pos_eq in K by (pose proof PI_RGT_0; lra). assert (3 < PI) by interval. lra. }
      pose proof (T_any n Tl cT y ltac:(lia) G HT) as TA. pose proof (rest_dev_l n p z2 d cR z ltac:(lia) Hp Hd HR) as RA. rewrite <- restq_list in RA by exact Hn.
      set (M := 1 + Cmod (lmz PI z)) in *. assert (M1 : 1 <= M) by (unfold M; pose proof (Cmod_ge_0 (lmz PI z)); lra).
      assert (KEY : forall T, T = Cminus (restC neg_eta_true inv_fact n (lmz PI z)) (Cmult (RtoC ((-1) ^ n)) (CLi n y)) ->
        Cmod (Cminus (Cplus (restq n p z2 (lmz p z)) (Cmult (RtoC sg) (cpev (map rq ((0, 1)%Z :: Tl)) (U y)))) T) <= eps * M ^ n).
      { intros T ->. set (r := restq n p z2 (lmz p z)) in *. set (t := cpev (map rq ((0, 1)%Z :: Tl)) (U y)) in *. set (Lj := CLi n y) in *. set (rc := restC neg_eta_true inv_fact n (lmz PI z)) in *.
        replace (Cminus (Cplus r (Cmult (RtoC sg) t)) (Cminus rc (Cmult (RtoC ((-1) ^ n)) Lj))) with (Cplus (Cminus r rc) (Cmult (RtoC sg) (Cminus t Lj))) by (rewrite Hs, RtoC_opp; ring).
        eapply Rle_trans; [apply Cmod_triangle|]. rewrite Cmod_mult, Cmod_R. assert (SG : Rabs sg = 1) by (rewrite Hs, Rabs_Ropp; apply pow_1_abs). rewrite SG, Rmult_1_l.
        assert (MP : 1 <= M ^ n) by (apply pow_R1_Rle, M1). assert (TQ : (2 * cT + / 10 ^ 37) * Cmod y <= (2 * cT + / 10 ^ 37) * M ^ n) by (apply Rmult_le_compat_l; lra).
        apply Rle_trans with ((cR + 2 * cT + / 10 ^ 37) * M ^ n); [lra|]. apply Rmult_le_compat_r; lra. }
      rewrite ZM in L1. split; [|split]; intros HX.
      * unfold Rabs in L1. destruct (Rcase_abs x); lra.
      * assert (LZ : lmz PI z = RtoC (ln (- x))) by (rewrite LM; destruct (Rlt_dec 0 x); [lra|]; unfold RtoC; f_equal; ring).
        assert (LP : 0 <= ln (- x)) by (rewrite <- ln_1; apply Rlt_le, ln_increasing; lra).
        assert (ME : M = 1 + ln (- x)) by (unfold M; rewrite LZ, Cmod_R, Rabs_pos_eq by exact LP; reflexivity). rewrite <- ME. apply KEY.
        rewrite <- CLi_real by (lia || lra). fold z. assert (ZN : fst z < 0) by (unfold z, RtoC; cbn [fst]; lra). pose proof (CLi_inversion n z (or_introl ZN)) as IV. fold y in IV.
        replace (Clog (Copp z)) with (lmz PI z) in IV; [rewrite <- IV; ring|]. rewrite LZ. unfold z. rewrite <- RtoC_opp, Clog_real by lra. reflexivity.
      * assert (LZ : lmz PI z = (ln x, PI)) by (rewrite LM; destruct (Rlt_dec 0 x); [reflexivity|lra]). unfold M in KEY. rewrite LZ in KEY. apply KEY.
        unfold low. rewrite YR, CLi_real, <- RtoC_mult; [reflexivity|lia|]. rewrite <- Rinv_1. apply Rinv_lt_contravar; lra.
Qed.
(** the special points *)
Lemma atx x v : -1 <= x <= 1 -> Rabs (v - ReLi n x) <= eps * Rabs x -> closeR n eps (RtoC v) x.
Proof. intros Hx H. split; [|split; intros; lra]. intros _. rewrite <- RtoC_minus, Cmod_R. exact H. Qed.
Lemma sp0 : closeR n eps (RtoC 0) 0.
Proof. apply atx; [lra|]. destruct n as [|m]; [lia|]. rewrite ReLi_0', Rminus_0_r, Rabs_R0. lra. Qed.
Lemma zeta_near : Rabs (hd 0 (map rq Ul) - ReLi n 1) <= cU.
Proof.
  pose proof (HU (RtoC 0) ltac:(rewrite Cmod_0; lra)) as A. destruct n as [|m]; [lia|]. assert (I : cpev (IG (zl DD bz) (S m)) (RtoC 0) = RtoC (ReLi (S m) 1)).
  { cbn [IG]. rewrite cpev_at0. unfold IGc. destruct m as [|m]; [lia|]. reflexivity. }
  rewrite I in A. destruct (map rq Ul) as [|a l]; cbn [cpev hd] in *.
  - rewrite <- RtoC_minus, Cmod_R in A. exact A.
  - replace (Cplus (RtoC a) (Cmult (RtoC 0) (cpev l (RtoC 0)))) with (RtoC a) in A by ring. rewrite <- RtoC_minus, Cmod_R in A. exact A.
Qed.
Lemma sp1 v : v = hd 0 (map rq Ul) -> closeR n eps (RtoC v) 1.
Proof. intros ->. apply atx; [lra|]. rewrite Rabs_R1. pose proof zeta_near. pose proof I37. pose proof cU0. lra. Qed.
Lemma spm1 v k : v = k * hd 0 (map rq Ul) -> ReLi n (-1) = k * ReLi n 1 -> Rabs k <= 1 -> closeR n eps (RtoC v) (-1).
Proof.
  intros -> E K. apply atx; [lra|]. rewrite E. rewrite <- Rmult_minus_distr_l, Rabs_mult. replace (Rabs (-1)) with 1 by (rewrite Rabs_left; lra). pose proof zeta_near as Z. pose proof I37. pose proof cU0.
  assert (Rabs k * Rabs (hd 0 (map rq Ul) - ReLi n 1) <= 1 * cU) by (apply Rmult_le_compat; [apply Rabs_pos|apply Rabs_pos|exact K|exact Z]). lra.
Qed.
Lemma cpev_R l r : cpev l (RtoC r) = RtoC (fold_right (fun c a => c + r * a) 0 l).
Proof. induction l as [|c l IH]; [reflexivity|]. cbn [cpev fold_right]. rewrite IH, RtoC_plus, RtoC_mult. reflexivity. Qed.
Lemma sph v : Rabs (v - ln 2 * fold_right (fun c a => c + ln 2 * a) 0 (map rq Tl)) <= eps / 2 - cT - / 10 ^ 37 -> closeR n eps (RtoC v) (/ 2).
Proof.
  intros H. apply atx; [lra|]. rewrite (Rabs_pos_eq (/ 2)) by lra. pose proof I37. pose proof cR0.
  assert (G : good (11 / 10) (RtoC (/ 2))) by (apply regionA_good; split; [rewrite Cmod_R, Rabs_pos_eq; lra|cbn; lra]).
  pose proof (T_any n Tl cT _ ltac:(lia) G HT) as T. rewrite Cmod_R, (Rabs_pos_eq (/ 2)) in T by lra. rewrite CLi_real in T by (lia || lra).
  assert (UE : U (RtoC (/ 2)) = RtoC (ln 2)). { unfold U. rewrite <- RtoC_minus. replace (1 - / 2) with (/ 2) by field. rewrite Clog_real, ln_Rinv, <- RtoC_opp by lra. f_equal. ring. }
  rewrite UE, cpev_R, <- RtoC_minus, Cmod_R in T. rewrite map_cons in T. cbn [fold_right] in T. rewrite rq0, Rplus_0_l in T. set (q := ln 2 * _) in *.
  replace (v - ReLi n (/ 2)) with ((v - q) + (q - ReLi n (/ 2))) by ring. eapply Rle_trans; [apply Rabs_triang|]. lra.
Qed.
Theorem axis_all : (forall x, x <> 0 -> x <> 1 -> closeR n eps (cval n Ul Tl p z2 sg (RtoC x)) x) /\ closeR n eps (RtoC 0) 0 /\ (forall v, v = hd 0 (map rq Ul) -> closeR n eps (RtoC v) 1) /\
  (forall v k, v = k * hd 0 (map rq Ul) -> ReLi n (-1) = k * ReLi n 1 -> Rabs k <= 1 -> closeR n eps (RtoC v) (-1)) /\
  (forall v, Rabs (v - ln 2 * fold_right (fun c a => c + ln 2 * a) 0 (map rq Tl)) <= eps / 2 - cT - / 10 ^ 37 -> closeR n eps (RtoC v) (/ 2)).
Proof. split; [exact cval_real|]. split; [exact sp0|]. split; [exact sp1|]. split; [exact spm1|exact sph]. Qed.
End A.
(** picking a special value *)
Lemma pick_a (A : Type) (c b1 : bool) (B1 E K : A) : c = true -> b1 = true -> (if c then if b1 then B1 else E else K) = B1. Proof. intros -> ->. reflexivity. Qed.
Lemma pick_b (A : Type) (c b1 b2 : bool) (B1 B2 E K : A) : c = true -> b1 = false -> b2 = true -> (if c then if b1 then B1 else if b2 then B2 else E else K) = B2. Proof. intros -> -> ->. reflexivity. Qed.
Lemma pick_c (A : Type) (c b1 b2 b3 : bool) (B1 B2 B3 E K : A) : c = true -> b1 = false -> b2 = false -> b3 = true -> (if c then if b1 then B1 else if b2 then B2 else if b3 then B3 else E else K) = B3. Proof. intros -> -> -> ->. reflexivity. Qed.
Lemma pick_d (A : Type) (c b1 b2 b3 b4 : bool) (B1 B2 B3 B4 E K : A) : c = true -> b1 = false -> b2 = false -> b3 = false -> b4 = true -> (if c then if b1 then B1 else if b2 then B2 else if b3 then B3 else if b4 then B4 else E else K) = B4. Proof. intros -> -> -> -> ->. reflexivity. Qed.
Section T.
Variable e : R.
Lemma tst (r : R) m : eqb (NumR e) (Some r) (lit (NumR e) m 0) = Reqb r (IZR m). Proof. rewrite lit_int. reflexivity. Qed.
Lemma tsth (r : R) : eqb (NumR e) (Some r) (lit (NumR e) 5 (-1)) = Reqb r (/ 2).
Proof. rewrite litneg. unfold rq. cbn [fst snd]. change (10 ^ 1)%Z with 10%Z. replace (5 / 10) with (/ 2) by field. reflexivity. Qed.
End T.
Ltac tt := cbn [ofC RtoC fst snd]; first [rewrite tst | rewrite tsth]; first [apply Reqb_true; (reflexivity || lra) | apply Reqb_false; lra].
