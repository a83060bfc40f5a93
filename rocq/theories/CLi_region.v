(** * Where |Log(1-z)| stays below 1.1.  Nothing here mentions the code. *)
From Coq Require Import ZArith Reals List Bool Lra Lia Psatz.
From Coquelicot Require Import Coquelicot.
From Interval Require Import Tactic.
From Verif Require Import NumR Spec Cplx Ccalc CLi CLi_disc CLi_inv CLi_T.
Local Open Scope R_scope.

Lemma Cmod_Clog z : Cmod (Clog z) * Cmod (Clog z) = ln (Cmod z) * ln (Cmod z) + Carg z * Carg z.
Proof. rewrite Cmod_sq. reflexivity. Qed.
Lemma sq_le a b : 0 <= a -> 0 <= b -> a * a <= b * b -> a <= b.
Proof. intros Ha Hb H. apply Rnot_lt_le. intros L. nra. Qed.
Lemma polar z : z <> RtoC 0 -> fst z = Cmod z * cos (Carg z) /\ snd z = Cmod z * sin (Carg z).
Proof.
  intros H. destruct (Clog_spec z H) as [E _]. unfold Clog, Cexp in E. cbn [fst snd] in E. rewrite exp_ln in E by (apply Cmod_gt_0, H).
  split; rewrite <- E at 1; reflexivity.
Qed.
Lemma cos_ge_half x : Rabs x <= PI -> / 2 <= cos x -> Rabs x <= PI / 3.
Proof.
  intros Hx Hc. apply Rnot_lt_le. intros L. pose proof PI_RGT_0.
  assert (C : cos x = cos (Rabs x)) by (unfold Rabs; destruct (Rcase_abs x); [rewrite cos_neg|]; reflexivity). rewrite C in Hc.
  assert (cos (Rabs x) < cos (PI / 3)) by (apply cos_decreasing_1; lra). rewrite cos_PI3 in *. lra.
Qed.
Lemma Carg_abs z : Rabs (Carg z) <= PI.
Proof. pose proof (atan2_range (snd z) (fst z)). unfold Carg. apply Rabs_le. lra. Qed.
Lemma log_region v : / 2 <= fst v -> Cmod v * Cmod v <= 2 * fst v -> Cmod (Clog v) <= 11 / 10.
Proof.
  intros H1 H2. assert (N : v <> RtoC 0) by (intros E; rewrite E in H1; cbn in H1; lra).
  assert (P : 0 < Cmod v) by (apply Cmod_gt_0, N). destruct (polar v N) as [E1 _].
  apply sq_le; [apply Cmod_ge_0|lra|]. rewrite Cmod_Clog. set (r := Cmod v) in *. set (f := Carg v) in *.
  assert (A1 : r <= 2 * cos f). { apply Rmult_le_reg_l with r; [exact P|]. rewrite E1 in H2. lra. }
  assert (A2 : / 2 <= r * cos f) by (rewrite <- E1; exact H1).
  assert (C1 : / 2 <= cos f). { assert (0 < cos f) by (apply Rnot_le_lt; intros Q; nra). nra. }
  pose proof (cos_ge_half f (Carg_abs v) C1) as F1.
  assert (L1 : ln r <= ln (2 * cos f)) by (apply ln_le; lra).
  assert (L2 : - ln (2 * cos f) <= ln r). { rewrite <- ln_Rinv by lra. apply ln_le; [apply Rinv_0_lt_compat; lra|]. apply Rmult_le_reg_r with (2 * cos f); [lra|]. rewrite Rinv_l by lra. lra. }
  assert (LL : ln r * ln r <= ln (2 * cos f) * ln (2 * cos f)) by nra.
  assert (C : cos f = cos (Rabs f)) by (unfold Rabs; destruct (Rcase_abs f); [rewrite cos_neg|]; reflexivity).
  assert (FF : f * f = Rabs f * Rabs f) by (rewrite <- Rabs_mult, Rabs_pos_eq by nra; reflexivity).
  rewrite C in LL. rewrite FF. pose proof (Rabs_pos f) as F0. set (x := Rabs f) in *. clearbody x.
  assert (X : x <= 1.0472) by (eapply Rle_trans; [exact F1|]; interval).
  assert (I : ln (2 * cos x) * ln (2 * cos x) + x * x <= 1.2) by (interval with (i_bisect x, i_prec 40)). lra.
Qed.
Definition regionA (z : C) : Prop := Cmod z <= 1 /\ fst z <= / 2.
Lemma regionA_1m z : regionA z -> / 2 <= fst (Cminus (RtoC 1) z) /\ Cmod (Cminus (RtoC 1) z) * Cmod (Cminus (RtoC 1) z) <= 2 * fst (Cminus (RtoC 1) z).
Proof.
  intros [H1 H2]. pose proof (Cmod_ge_0 z). assert (Q : Cmod z * Cmod z <= 1) by nra. rewrite Cmod_sq in *. destruct z as [a b]. cbn in *. split; [lra|]. nra.
Qed.
Lemma regionA_pt z : regionA z -> slit z /\ Cmod (U z) <= 11 / 10 /\ / 2 <= Cmod (Cminus (RtoC 1) z).
Proof.
  intros H. pose proof (regionA_1m z H) as [B1 B2]. destruct H as [H1 H2]. split; [left; lra|]. split.
  - unfold U. rewrite Cmod_opp. apply log_region; assumption.
  - eapply Rle_trans; [exact B1|]. eapply Rle_trans; [apply Rle_abs|apply Cmod_fst].
Qed.
Lemma regionA_ray z t : regionA z -> 0 <= t <= 1 -> regionA (Cmult (RtoC t) z).
Proof.
  intros [H1 H2] Ht. pose proof (Cmod_ge_0 z). split; [rewrite Cmod_scal, Rabs_pos_eq by lra; nra|]. destruct z as [a b]. cbn in *. replace (t * a - 0 * b) with (t * a) by ring. nra.
Qed.
Theorem regionA_good z : regionA z -> good (11 / 10) z.
Proof. intros H t Ht. apply regionA_pt, regionA_ray; assumption. Qed.

(** |z| <= 1 and |Log z| >= 1 *)
Lemma edge_pt z : Cmod z <= 1 -> 9 / 10 <= Cmod z -> 99 / 100 <= Rabs (Carg z) <= 10472 / 10000 -> slit z /\ Cmod (U z) <= 11 / 10 /\ / 2 <= Cmod (Cminus (RtoC 1) z).
Proof.
  intros H1 H2 H3. assert (N : z <> RtoC 0) by (intros E; rewrite E, Cmod_0 in H2; lra). destruct (polar z N) as [E1 E2].
  assert (C : cos (Carg z) = cos (Rabs (Carg z))) by (unfold Rabs; destruct (Rcase_abs (Carg z)); [rewrite cos_neg|]; reflexivity).
  assert (Sn : Rabs (sin (Carg z)) = sin (Rabs (Carg z))).
  { assert (SP : 0 <= sin (Rabs (Carg z))) by (apply sin_ge_0; [lra|]; pose proof PI2_1; lra). revert SP. generalize (Carg z). intros f SP. unfold Rabs in SP |- *. destruct (Rcase_abs f); [rewrite sin_neg in *|]; destruct (Rcase_abs (sin f)); lra. }
  rewrite C in E1. set (x := Rabs (Carg z)) in *. set (r := Cmod z) in *.
  assert (X1 : r * cos x <= 0.55) by (interval with (i_prec 40)). assert (X2 : 0.4 <= r * cos x) by (interval with (i_prec 40)).
  assert (V1 : fst (Cminus (RtoC 1) z) = 1 - r * cos x) by (cbn; rewrite E1; ring).
  assert (V2 : Rabs (snd (Cminus (RtoC 1) z)) = r * sin x). { cbn. rewrite Rplus_0_l, Rabs_Ropp, E2, Rabs_mult, Sn, (Rabs_pos_eq r) by lra. reflexivity. }
  assert (VM : Cmod (Cminus (RtoC 1) z) * Cmod (Cminus (RtoC 1) z) = (1 - r * cos x) * (1 - r * cos x) + (r * sin x) * (r * sin x)).
  { rewrite Cmod_sq, V1. f_equal. rewrite <- (Rabs_pos_eq (snd _ * snd _)) by apply (Rle_0_sqr (snd (Cminus (RtoC 1) z))). rewrite Rabs_mult, V2. reflexivity. }
  split; [left; rewrite E1; lra|].
  assert (M1 : 0.8 <= Cmod (Cminus (RtoC 1) z) * Cmod (Cminus (RtoC 1) z) <= 1.05).
  { rewrite VM. split; interval with (i_bisect x, i_bisect r, i_prec 40). }
  pose proof (Cmod_ge_0 (Cminus (RtoC 1) z)) as M0.
  split; [|nra].
  unfold U. rewrite Cmod_opp. apply sq_le; [apply Cmod_ge_0|lra|]. rewrite Cmod_Clog.
  assert (AG : Rabs (Carg (Cminus (RtoC 1) z)) = atan (r * sin x / (1 - r * cos x))).
  { unfold Carg, atan2R. rewrite V1. destruct (Rlt_dec 0 (1 - r * cos x)) as [Q|Q]; [|lra].
    assert (D0 : forall y d, 0 < d -> Rabs (atan (y / d)) = atan (Rabs y / d)).
    { intros y d Hd. unfold Rabs at 2. destruct (Rcase_abs y) as [Y|Y].
      - replace (- y / d) with (- (y / d)) by (field; lra). rewrite atan_opp. rewrite Rabs_left1; [reflexivity|]. rewrite <- atan_0. destruct (Req_dec y 0) as [->|Ny]; [unfold Rdiv; rewrite Rmult_0_l; lra|]. left. apply atan_increasing. apply Rmult_lt_reg_r with d; [exact Hd|]. unfold Rdiv. rewrite Rmult_assoc, Rinv_l by lra. lra.
      - rewrite Rabs_pos_eq; [reflexivity|]. rewrite <- atan_0. destruct (Req_dec y 0) as [->|Ny]; [unfold Rdiv; rewrite Rmult_0_l; lra|]. left. apply atan_increasing. apply Rmult_lt_reg_r with d; [exact Hd|]. unfold Rdiv. rewrite Rmult_assoc, Rinv_l by lra. lra. }
    rewrite D0 by exact Q. rewrite V2. reflexivity. }
  set (m := Cmod (Cminus (RtoC 1) z)) in *. clearbody m. assert (m0 : 0 < m) by nra.
  assert (LN : Rabs (ln m) <= 0.12). { assert (0.89 <= m <= 1.03) by nra. interval. }
  assert (AA : Carg (Cminus (RtoC 1) z) * Carg (Cminus (RtoC 1) z) <= 1.09 * 1.09 ).
  { rewrite <- (Rabs_pos_eq (_ * _)) by apply (Rle_0_sqr (Carg (Cminus (RtoC 1) z))). rewrite Rabs_mult, AG. 
    assert (0 <= atan (r * sin x / (1 - r * cos x)) <= 1.09) by (split; interval with (i_bisect x, i_bisect r, i_prec 40)). nra. }
  assert (ln m * ln m <= 0.0144). { pose proof (Rabs_pos (ln m)). rewrite <- (Rabs_pos_eq (ln m * ln m)) by apply (Rle_0_sqr (ln m)). rewrite Rabs_mult. nra. }
  lra.
Qed.
Lemma Carg_ray z t : 0 < t -> Carg (Cmult (RtoC t) z) = Carg z.
Proof.
  intros Ht. destruct (Ceq_dec z (RtoC 0)) as [->|N]; [f_equal; ring|].
  assert (TN : Cmult (RtoC t) z <> RtoC 0) by (apply Cmult_neq_0; [apply RtoC_neq; lra|exact N]).
  assert (E : Clog (Cmult (RtoC t) z) = Cplus (RtoC (ln t)) (Clog z)).
  { symmetry. apply Clog_unique. destruct (Clog_spec z N) as [A B]. split.
    - destruct (Clog z) as [a b]. unfold Cplus, RtoC, Cexp in *. cbn [fst snd] in *. rewrite exp_plus, exp_ln, Rplus_0_l by exact Ht. rewrite <- A. unfold Cmult. cbn. f_equal; ring.
    - destruct (Clog z) as [a b]. cbn in *. rewrite Rplus_0_l. exact B. }
  unfold Clog in E. injection E as _ E. rewrite E. cbn. ring.
Qed.
Theorem regionB_good z : Cmod z <= 1 -> 1 <= Cmod (Clog z) -> z <> RtoC 0 -> good (11 / 10) z.
Proof.
  intros H1 H2 N. destruct (Rle_dec (fst z) (/ 2)) as [H|H]; [apply regionA_good; split; assumption|]. apply Rnot_le_lt in H.
  destruct (polar z N) as [E1 E2]. pose proof (Cmod_gt_0 z) as P. apply proj1 in P. specialize (P N).
  assert (C : cos (Carg z) = cos (Rabs (Carg z))) by (unfold Rabs; destruct (Rcase_abs (Carg z)); [rewrite cos_neg|]; reflexivity).
  assert (Q2 : 1 <= ln (Cmod z) * ln (Cmod z) + Carg z * Carg z) by (rewrite <- Cmod_Clog; nra).
  assert (FF : Carg z * Carg z = Rabs (Carg z) * Rabs (Carg z)) by (rewrite <- Rabs_mult, Rabs_pos_eq by apply (Rle_0_sqr (Carg z)); reflexivity).
  rewrite FF in Q2. rewrite E1, C in H.
  assert (CP : / 2 < cos (Rabs (Carg z))). { apply Rnot_le_lt. intros Q. destruct (Rle_dec 0 (cos (Rabs (Carg z)))); nra. }
  assert (F1 : Rabs (Carg z) <= PI / 3). { apply cos_ge_half; [apply Carg_abs|]. rewrite C. lra. }
  assert (F2 : Rabs (Carg z) <= 10472 / 10000) by (eapply Rle_trans; [exact F1|]; interval).
  pose proof (Rabs_pos (Carg z)) as F0.
  assert (AH : 99 / 100 <= Rabs (Carg z)).
  { set (x := Rabs (Carg z)) in *. clearbody x. assert (R1 : / 2 < Cmod z). { pose proof (COS_bound x). nra. }
    set (r := Cmod z) in *. clearbody r. clear - Q2 H R1 H1 F0 CP. set (a := ln r) in *. assert (Er : r = exp a) by (unfold a; rewrite exp_ln; lra).
    assert (A1 : a <= 0) by (unfold a; rewrite <- ln_1; apply ln_le; lra). assert (A2 : -0.7 <= a). { unfold a. apply Rle_trans with (ln (/ 2)); [interval|apply ln_le; lra]. }
    clearbody a. subst r. apply Rnot_lt_le. intros L.
    assert (A3 : a <= -0.14). { apply Rnot_lt_le. intros Q. nra. }
    assert (XS : sqrt (1 - a * a) <= x). { rewrite <- (sqrt_square x) by lra. apply sqrt_le_1_alt. lra. }
    assert (S1 : 0 <= sqrt (1 - a * a)) by apply sqrt_pos. assert (x <= PI) by interval.
    assert (CC : cos x <= cos (sqrt (1 - a * a))) by (apply cos_decr_1; lra).
    assert (B : exp a * cos (sqrt (1 - a * a)) <= 0.499) by (interval with (i_bisect a, i_prec 40)).
    pose proof (exp_pos a). assert (exp a * cos x <= exp a * cos (sqrt (1 - a * a))) by (apply Rmult_le_compat_l; lra). lra. }
  intros t Ht. destruct (Rle_dec (fst (Cmult (RtoC t) z)) (/ 2)) as [G|G].
  - apply regionA_pt. split; [|exact G]. rewrite Cmod_scal, Rabs_pos_eq by lra. pose proof (Cmod_ge_0 z). nra.
  - apply Rnot_le_lt in G. assert (G' : / 2 < t * fst z). { destruct z as [a b]. cbn in *. lra. }
    assert (T0 : 0 < t). { apply Rnot_le_lt. intros Q. assert (t = 0) by lra. subst t. lra. }
    apply edge_pt.
    + rewrite Cmod_scal, Rabs_pos_eq by lra. nra.
    + rewrite Cmod_scal, Rabs_pos_eq by lra. rewrite E1, C in G'.
      assert (cos (Rabs (Carg z)) <= 0.55). { set (x := Rabs (Carg z)) in *. clearbody x. interval. }
      set (c := cos (Rabs (Carg z))) in *. clearbody c. assert (t * (Cmod z * c) <= (t * Cmod z) * 0.55). { rewrite <- Rmult_assoc. apply Rmult_le_compat_l; [apply Rmult_le_pos; lra|lra]. } lra.
    + rewrite Carg_ray by exact T0. split; assumption.
Qed.
