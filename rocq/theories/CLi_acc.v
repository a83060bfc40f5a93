(** * Accuracy of the complex polylogarithm code in exact arithmetic: assembly *)
From Coq Require Import ZArith Reals List Bool Lra Lia Psatz.
From Coquelicot Require Import Coquelicot.
From Interval Require Import Tactic.
From Verif Require Import Num NumR Spec Eval_R Consts Cplx Ccalc CLi CLi_disc CLi_inv Cpoly CLi_unity CLi_T Polylog CLi_ref CLi_region Rest CLi_code CLi_eval CLi_dev CLi_rest.
Import ListNotations.
Local Open Scope R_scope.

Lemma Cconj_mult a b : Cconj (Cmult a b) = Cmult (Cconj a) (Cconj b). Proof. destruct a, b. unfold Cconj, Cmult. cbn. f_equal; ring. Qed.
Lemma Cconj_plus a b : Cconj (Cplus a b) = Cplus (Cconj a) (Cconj b). Proof. destruct a, b. unfold Cconj, Cplus. cbn. f_equal; ring. Qed.
Lemma Cconj_minus a b : Cconj (Cminus a b) = Cminus (Cconj a) (Cconj b). Proof. destruct a, b. unfold Cconj, Cminus, Cplus, Copp. cbn. f_equal; ring. Qed.
Lemma Cconj_R r : Cconj (RtoC r) = RtoC r. Proof. unfold Cconj, RtoC. cbn. f_equal. ring. Qed.
Lemma Cpow_conj w k : Cpow (Cconj w) k = Cconj (Cpow w k).
Proof. induction k as [|k IH]; [symmetry; apply Cconj_R|]. cbn [Cpow]. rewrite IH, Cconj_mult. reflexivity. Qed.
Lemma Cmod_conj' z : Cmod (Cconj z) = Cmod z. Proof. unfold Cmod, Cconj. cbn [fst snd]. f_equal. ring. Qed.
Lemma Lm_conj n w : snd w <> 0 -> Lm (S n) (Cconj w) = Cconj (Lm (S n) w).
Proof.
  intros H. unfold Lm. rewrite !Cconj_mult, Cconj_minus, !Cconj_R, Cpow_conj. f_equal. f_equal.
  replace (Copp (Cconj w)) with (Cconj (Copp w)) by (destruct w; unfold Cconj, Copp; cbn; f_equal; ring). apply Clog_conj. destruct w. cbn in *. lra.
Qed.
Lemma cpev_conj l w : cpev l (Cconj w) = Cconj (cpev l w).
Proof. induction l as [|c l IH]; [cbn [cpev]; rewrite Cconj_R; reflexivity|]. cbn [cpev]. rewrite IH, Cconj_plus, Cconj_mult, Cconj_R. reflexivity. Qed.
Lemma if_le1 n : 0 < inv_fact n <= 1.
Proof.
  unfold inv_fact. pose proof (lt_O_fact n) as F. assert (1 <= INR (fact n)) by (apply (le_INR 1); lia). split; [apply Rinv_0_lt_compat; lra|]. rewrite <- Rinv_1. apply Rinv_le_contravar; lra.
Qed.
(** near 1 *)
Lemma unity_up n w : (n <= 6)%nat -> 0 < snd w <= PI -> Cmod w <= 11 / 10 -> Cmod (EU (zl DD bz) n w) <= / 10 ^ 37.
Proof.
  intros Hn H1 H2. eapply Rle_trans; [apply unity_small; [exact H1|lra]|]. pose proof (if_le1 n) as [I0 I1]. pose proof (Cmod_fst w) as F. pose proof (Cmod_snd w) as S1.
  assert (S2 : 0 <= Rabs (fst w) + snd w <= 22 / 10). { split; [pose proof (Rabs_pos (fst w)); lra|]. pose proof (Rle_abs (snd w)). lra. }
  assert (P : (Rabs (fst w) + snd w) ^ n <= (22 / 10) ^ 6).
  { apply Rle_trans with ((22 / 10) ^ n); [apply pow_incr; exact S2|]. apply Rle_pow; [lra|exact Hn]. }
  assert (P0 : 0 <= (Rabs (fst w) + snd w) ^ n) by (apply pow_le; lra). set (X := (Rabs (fst w) + snd w) ^ n) in *.
  apply Rle_trans with (60000 / 10 ^ 45 * 1 * (22 / 10) ^ 6); [|lra]. apply Rmult_le_compat; [apply Rmult_le_pos; lra|exact P0| |exact P]. apply Rmult_le_compat_l; lra.
Qed.
Lemma unity_any n w : (n <= 5)%nat -> snd w <> 0 -> Rabs (snd w) <= PI -> Cmod w <= 11 / 10 -> Cmod (EU (zl DD bz) (S n) w) <= / 10 ^ 37.
Proof.
  intros Hn H0 H1 H2. destruct (Rlt_dec 0 (snd w)) as [P|P]; [apply unity_up; [lia| |exact H2]; rewrite Rabs_pos_eq in H1; lra|].
  assert (Q : snd w < 0) by lra. rewrite Rabs_left in H1 by exact Q.
  assert (E : EU (zl DD bz) (S n) w = Cconj (EU (zl DD bz) (S n) (Cconj w))).
  { assert (CC : w = Cconj (Cconj w)) by (destruct w; unfold Cconj; cbn; f_equal; ring). unfold EU. rewrite !Cconj_minus, <- cpev_conj, <- Lm_conj, <- CC by (destruct w; cbn in *; lra). f_equal. f_equal.
    assert (ES : Cexp (Cconj w) = Cconj (Cexp w)) by (destruct w as [a b]; unfold Cexp, Cconj; cbn [fst snd]; rewrite cos_neg, sin_neg; f_equal; ring).
    rewrite ES. rewrite CLi_conj.
    - destruct (CLi (S n) (Cexp w)) as [x y]. unfold Cconj. cbn. f_equal. ring.
    - assert (Sl : slit (Cexp (Cconj w))) by (destruct w as [a b]; apply Cexp_slit; cbn in *; pose proof PI_RGT_0; lra). rewrite ES in Sl. apply Cconj_slit in Sl.
      replace (Cexp w) with (Cconj (Cconj (Cexp w))) by (destruct (Cexp w); unfold Cconj; cbn; f_equal; ring). exact Sl. }
  rewrite E, Cmod_conj'. clear E. apply unity_up; [lia| |rewrite Cmod_conj'; exact H2]. unfold Cconj. cbn [snd]. lra.
Qed.
(** the series in u = -Log(1-z) *)
Lemma Qu_hd n u : (1 <= n <= 6)%nat -> cpev (Qu n) u = Cmult u (cpev (zl DD (tl (qz n))) u).
Proof.
  intros H. assert (C : n = 1%nat \/ n = 2%nat \/ n = 3%nat \/ n = 4%nat \/ n = 5%nat \/ n = 6%nat) by lia. unfold Qu.
  assert (E : qz n = 0%Z :: tl (qz n)) by (destruct C as [->|[->|[->|[->|[->| ->]]]]]; reflexivity). rewrite E at 1. cbn [zl map cpev]. fold (zl DD (tl (qz n))).
  replace (0 / IZR DD) with 0 by (unfold Rdiv; ring). ring.
Qed.
Lemma T_any n Tl cT z : (1 <= n <= 6)%nat -> good (11 / 10) z -> (forall u, Cmod u <= 11 / 10 -> Cmod (Cminus (cpev (map rq Tl) u) (cpev (zl DD (tl (qz n))) u)) <= cT) ->
  Cmod (Cminus (cpev (map rq ((0, 1)%Z :: Tl)) (U z)) (CLi n z)) <= (2 * cT + / 10 ^ 37) * Cmod z.
Proof.
  intros Hn G HT. pose proof (T_ref n z Hn G) as R. pose proof (G 1 ltac:(lra)) as (_ & G2 & _). replace (Cmult (RtoC 1) z) with z in G2 by ring.
  pose proof (U_small _ z G 1 ltac:(lra)) as G3. replace (Cmult (RtoC 1) z) with z in G3 by ring. rewrite Qu_hd in R by exact Hn. cbn [map cpev]. rewrite rq0. specialize (HT _ G2).
  set (u := U z) in *. set (A := cpev (map rq Tl) u) in *. set (B := cpev (zl DD (tl (qz n))) u) in *. set (Li := CLi n z) in *.
  replace (Cminus (Cplus (RtoC 0) (Cmult u A)) Li) with (Cminus (Cmult u (Cminus A B)) (Cminus Li (Cmult u B))) by ring.
  eapply Rle_trans; [apply Cmod_triangle|]. rewrite Cmod_opp, Cmod_mult. pose proof (Cmod_ge_0 z).
  assert (M : Cmod u * Cmod (Cminus A B) <= 2 * 1 * Cmod z * cT) by (apply Rmult_le_compat; [apply Cmod_ge_0|apply Cmod_ge_0|exact G3|exact HT]).
  assert (K : 3000 / 10 ^ 44 * Cmod z <= / 10 ^ 37 * Cmod z) by (apply Rmult_le_compat_r; lra). lra.
Qed.
Lemma Clog_inv z : snd z <> 0 -> Clog (Cinv z) = Copp (Clog z).
Proof.
  intros H. assert (Z0 : z <> RtoC 0) by (intros E; apply H; rewrite E; reflexivity). symmetry. apply Clog_unique. destruct (Clog_spec z Z0) as [E R]. split.
  - assert (X : Cmult (Cexp (Clog z)) (Cexp (Copp (Clog z))) = RtoC 1).
    { destruct (Clog z) as [a b]. unfold Cexp, Copp, Cmult, RtoC. cbn [fst snd]. rewrite exp_Ropp, cos_neg, sin_neg. pose proof (exp_pos a). pose proof (sin2_cos2 b) as K. unfold Rsqr in K. f_equal; [|field; lra]. replace (exp a * cos b * (/ exp a * cos b) - exp a * sin b * (/ exp a * - sin b)) with (sin b * sin b + cos b * cos b) by (field; lra). exact K. }
    rewrite E in X. replace (Cexp (Copp (Clog z))) with (Cmult (Cinv z) (Cmult z (Cexp (Copp (Clog z))))) by (field; exact Z0). rewrite X. ring.
  - pose proof (Clog_im_neq z H) as N. destruct (Clog z) as [a b]. cbn in *. pose proof PI_RGT_0.
    assert (b <> PI). { intros ->. apply H. rewrite <- E. unfold Cexp. cbn. rewrite sin_PI. ring. } lra.
Qed.
Definition close (n : nat) (eps : R) (v z : C) : Prop :=
  (Cmod z <= 1 -> Cmod (Cminus v (CLi n z)) <= eps * Cmod z) /\ (1 < Cmod z -> Cmod (Cminus v (CLi n z)) <= eps * (1 + Cmod (Clog (Copp z))) ^ n).
Section A.
Variables (n : nat) (Ul Tl : list (Z * Z)) (p z2 sg d cU cT cR eps : R).
Hypothesis Hn : (3 <= n <= 6)%nat.
Hypothesis HU : forall w, Cmod w <= 1 -> Cmod (Cminus (cpev (map rq Ul) w) (cpev (IG (zl DD bz) n) w)) <= cU.
Hypothesis HT : forall u, Cmod u <= 11 / 10 -> Cmod (Cminus (cpev (map rq Tl) u) (cpev (zl DD (tl (qz n))) u)) <= cT.
Hypothesis Hp : Rabs (p - PI) <= d.
Hypothesis Hd : d <= 1.
Hypothesis HR : Bd d (rlist n p z2) (rlist n PI (PI * PI / 6)) <= cR.
Hypothesis Hs : sg = - (-1) ^ n.
Hypothesis E1 : 3 * (cU + / 10 ^ 37) <= eps.
Hypothesis E2 : cR + 2 * cT + / 10 ^ 37 <= eps.
Theorem cval_close z : snd z <> 0 -> close n eps (cval n Ul Tl p z2 sg z) z.
Proof.
  intros H. assert (Z0 : z <> RtoC 0) by (intros E; apply H; rewrite E; reflexivity). pose proof (Cmod_gt_0 z) as ZP. apply proj1 in ZP. specialize (ZP Z0).
  assert (cT0 : 0 <= cT) by (eapply Rle_trans; [apply Cmod_ge_0|apply (HT (RtoC 0)); rewrite Cmod_0; lra]).
  assert (cU0 : 0 <= cU) by (eapply Rle_trans; [apply Cmod_ge_0|apply (HU (RtoC 0)); rewrite Cmod_0; lra]).
  assert (BP : 0 <= cR). { pose proof (rest_dev n p z2 d cR z ltac:(lia) H Hp Hd HR) as R. assert (0 <= cR * (1 + Cmod (Clog (Copp z))) ^ n) by (eapply Rle_trans; [apply Cmod_ge_0|exact R]).
    pose proof (Cmod_ge_0 (Clog (Copp z))). assert (0 < (1 + Cmod (Clog (Copp z))) ^ n) by (apply pow_lt; lra). nra. }
  assert (M1 : 1 <= (1 + Cmod (Clog (Copp z))) ^ n) by (apply pow_R1_Rle; pose proof (Cmod_ge_0 (Clog (Copp z))); lra).
  unfold cval. destruct (Rlt_dec (Cmod (Clog z) * Cmod (Clog z)) 1) as [B|B].
  - assert (W1 : Cmod (Clog z) <= 1) by (pose proof (Cmod_ge_0 (Clog z)); nra). destruct (Clog_spec z Z0) as [EX RA].
    assert (ER : Cmod (Cminus (Cplus (cpev (map rq Ul) (Clog z)) (Lm n (Clog z))) (CLi n z)) <= cU + / 10 ^ 37).
    { pose proof (HU _ W1) as A. destruct n as [|m]; [lia|]. assert (M5 : (m <= 5)%nat) by lia. assert (RB : Rabs (snd (Clog z)) <= PI) by (apply Rabs_le; lra). pose proof (unity_any m (Clog z) M5 (Clog_im_neq z H) RB ltac:(lra)) as UA. unfold EU in UA. rewrite EX in UA.
      set (a := cpev (map rq Ul) (Clog z)) in *. set (b := cpev (IG (zl DD bz) (S m)) (Clog z)) in *. set (l := Lm (S m) (Clog z)) in *. set (Li := CLi (S m) z) in *.
      replace (Cminus (Cplus a l) Li) with (Cminus (Cminus a b) (Cminus (Cminus Li b) l)) by ring. eapply Rle_trans; [apply Cmod_triangle|]. rewrite Cmod_opp. lra. }
    split; intros HZ; (eapply Rle_trans; [exact ER|]).
    + assert (Z3 : / 3 <= Cmod z).
      { assert (F : - 1 <= ln (Cmod z)). { pose proof (Cmod_fst (Clog z)) as F. unfold Clog in F at 1. cbn [fst] in F. apply Rabs_le_between in F || idtac. unfold Rabs in F. destruct (Rcase_abs (ln (Cmod z))); lra. }
        rewrite <- (exp_ln (Cmod z)) by exact ZP. apply Rle_trans with (exp (- 1)); [|apply exp_mono; exact F]. interval. }
      apply Rle_trans with (eps * / 3); [lra|]. apply Rmult_le_compat_l; [|exact Z3]. assert (0 < / 10 ^ 37) by (apply Rinv_0_lt_compat, pow_lt; lra). lra.
    + assert (0 < / 10 ^ 37) by (apply Rinv_0_lt_compat, pow_lt; lra). apply Rle_trans with (eps * 1); [lra|]. apply Rmult_le_compat_l; lra.
  - apply Rnot_lt_le in B. assert (W1 : 1 <= Cmod (Clog z)) by (pose proof (Cmod_ge_0 (Clog z)); nra). assert (I0 : 0 < / 10 ^ 37) by (apply Rinv_0_lt_compat, pow_lt; lra).
    destruct (Rle_dec (Cmod z) 1) as [L1|L1].
    + split; [intros _|intros Q; lra]. eapply Rle_trans; [apply T_any; [lia|apply regionB_good; assumption|exact HT]|]. apply Rmult_le_compat_r; lra.
    + apply Rnot_le_lt in L1. split; [intros Q; lra|intros _]. set (y := Cinv z).
      assert (Y0 : y <> RtoC 0) by (intros E; apply (Cinv_im_ne z H); fold y; rewrite E; reflexivity).
      assert (YM : Cmod y = / Cmod z) by (apply Cmod_inv, Z0). assert (YM1 : Cmod y <= 1) by (rewrite YM, <- Rinv_1; apply Rinv_le_contravar; lra).
      assert (G : good (11 / 10) y). { apply regionB_good; [exact YM1| |exact Y0]. unfold y. rewrite Clog_inv, Cmod_opp by exact H. exact W1. }
      pose proof (T_any n Tl cT y ltac:(lia) G HT) as TA. pose proof (rest_dev n p z2 d cR z ltac:(lia) H Hp Hd HR) as RA. rewrite <- restq_list in RA by exact Hn.
      pose proof (CLi_inversion n z (or_intror H)) as IV. fold y in IV.
      set (r := restq n p z2 (lmz p z)) in *. set (t := cpev (map rq ((0, 1)%Z :: Tl)) (U y)) in *. set (Li := CLi n z) in *. set (Lj := CLi n y) in *. set (rc := restC neg_eta_true inv_fact n (Clog (Copp z))) in *.
      replace (Cminus (Cplus r (Cmult (RtoC sg) t)) Li) with (Cplus (Cminus r rc) (Cmult (RtoC sg) (Cminus t Lj))) by (rewrite Hs, RtoC_opp, <- IV; ring).
      eapply Rle_trans; [apply Cmod_triangle|]. rewrite Cmod_mult, Cmod_R. assert (SG : Rabs sg = 1) by (rewrite Hs, Rabs_Ropp; apply pow_1_abs). rewrite SG, Rmult_1_l.
      set (M := (1 + Cmod (Clog (Copp z))) ^ n) in *. assert (T1 : (2 * cT + / 10 ^ 37) * Cmod y <= (2 * cT + / 10 ^ 37) * M) by (apply Rmult_le_compat_l; lra).
      apply Rle_trans with ((cR + 2 * cT + / 10 ^ 37) * M); [lra|]. apply Rmult_le_compat_r; lra.
Qed.
End A.
