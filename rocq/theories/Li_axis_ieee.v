(** * The complex polylogarithms that delegate to the real ones, on the real axis, in IEEE arithmetic *)
From Coq Require Import ZArith Reals Bool Lia Lra Psatz List.
From Coquelicot Require Import Rcomplements.
From Interval Require Import Tactic.
From Flocq Require Import Core Relative IEEE754.BinarySingleNaN.
From Verif Require Import Num NumR NumB NumB_facts Proof_Float Libm Fcalc Polylog Consts Model_LiR Model_LiC Ieee Li2_ieee Li34_ieee.
Import ListNotations.
Local Open Scope R_scope.

Section G.
Variables prec emax : Z.
Context (Hp : Prec_gt_0 prec) (He : Prec_lt_emax prec emax).
Hypothesis prec1 : (16 < prec)%Z.
Hypothesis em : (128 <= emax)%Z.
Hypothesis em3 : (emax <= 20000)%Z.
Hypothesis pe : (prec + 30 <= emax)%Z.
Notation fexp := (SpecFloat.fexp prec emax).
Notation rnd := (round radix2 fexp ZnearestE).
Notation u := (Fcalc.u prec).
Notation eta := (Fcalc.eta prec emax).
Notation A := (Fcalc.A prec emax).
Variable L : libm prec emax.
Hypothesis HL : libm_ok L.
Notation N := (NumB prec emax Hp He L).
Lemma gu : 0 < u <= / 2 ^ 17.
Proof. split; [apply bpow_gt_0|]. unfold Fcalc.u. replace (/ 2 ^ 17) with (bpow radix2 (-17)) by (rewrite bp2; reflexivity). apply bpow_le. lia. Qed.
Lemma geta : 0 < eta <= u * u / 2 ^ 20.
Proof.
  split; [apply bpow_gt_0|]. unfold Rdiv. replace (/ 2 ^ 20) with (bpow radix2 (-20)) by (rewrite bp2; reflexivity). unfold Fcalc.u, Fcalc.eta. rewrite <- !bpow_plus. apply bpow_le. lia.
Qed.
(** the float after 1 is 1 + 2u *)
Lemma gt1 (x : binary_float prec emax) : 1 < B2R x -> 1 + u <= B2R x.
Proof.
  intros H. destruct (Rle_or_lt (1 + u) (B2R x)) as [K|K]; [exact K|exfalso].
  pose proof gu as U. pose proof (generic_format_B2R prec emax x) as G.
  assert (E : (cexp radix2 fexp (B2R x) = 1 - prec)%Z).
  { unfold cexp. rewrite (mag_unique_pos radix2 (B2R x) 1); [|change (bpow radix2 (1 - 1)) with 1; change (bpow radix2 1) with 2; split; lra]. unfold SpecFloat.fexp, SpecFloat.emin. lia. }
  rewrite G in H, K. unfold F2R in H, K. cbn [Fnum Fexp] in H, K. rewrite E in H, K. set (m := Ztrunc _) in *.
  assert (EU : bpow radix2 (1 - prec) = 2 * u) by (unfold Fcalc.u; replace (1 - prec)%Z with (1 + - prec)%Z by ring; rewrite bpow_plus; reflexivity). rewrite EU in H, K.
  assert (P1 : bpow radix2 (prec - 1) * (2 * u) = 1). { rewrite <- EU, <- bpow_plus. replace (prec - 1 + (1 - prec))%Z with 0%Z by ring. reflexivity. }
  assert (P2 : bpow radix2 (prec - 1) = IZR (2 ^ (prec - 1))) by (rewrite <- IZR_Zpower by lia; reflexivity). rewrite P2 in P1.
  assert (I1 : (2 ^ (prec - 1) < m)%Z). { apply lt_IZR. apply (Rmult_lt_reg_r (2 * u)); lra. }
  assert (I2 : (m < 2 ^ (prec - 1) + 1)%Z). { apply lt_IZR. rewrite plus_IZR. apply (Rmult_lt_reg_r (2 * u)); [lra|]. rewrite Rmult_plus_distr_r, P1. lra. }
  lia.
Qed.
Lemma ln_gt1 (x : binary_float prec emax) : 1 < B2R x -> u / 2 <= ln (B2R x).
Proof.
  intros H. pose proof gu as U. pose proof (gt1 x H) as K. apply Rle_trans with (ln (1 + u)); [|apply ln_le; lra].
  destruct (ln_small (u / 2) ltac:(lra)) as [_ _]. rewrite <- (ln_exp (u / 2)). apply ln_le; [apply exp_pos|].
  (* exp t <= 1/(1-t) <= 1 + 2t *)
  pose proof (exp_ineq1_le (- (u / 2))) as X. pose proof (exp_pos (- (u / 2))) as XP. replace (exp (u / 2)) with (/ exp (- (u / 2))) by (rewrite <- exp_Ropp; f_equal; ring).
  apply Rle_trans with (/ (1 - u / 2)); [apply Rinv_le_contravar; lra|]. apply (Rmult_le_reg_l (1 - u / 2)); [lra|]. rewrite Rinv_r by lra. assert (u * u <= u * / 2 ^ 17) by (apply Rmult_le_compat_l; lra). lra.
Qed.
Lemma ln_lt (x : binary_float prec emax) : 1 < B2R x -> ln (B2R x) <= 20000.
Proof.
  intros H. assert (K : B2R x < bpow radix2 emax) by (eapply Rle_lt_trans; [apply Rle_abs|apply abs_B2R_lt_emax]).
  apply Rle_trans with (ln (bpow radix2 20000)). { apply ln_le; [lra|]. apply Rlt_le. eapply Rlt_le_trans; [exact K|apply bpow_le; lia]. }
  rewrite bpow_exp, ln_exp. change (IZR radix2) with 2. assert (0 < ln 2 <= 1) by (split; interval). lra.
Qed.
Lemma im2 (PIf x : binary_float prec emax) : A PIf PI (4 * u) -> is_finite x = true -> 1 < B2R x ->
  A (mul N (opp N PIf) (nlog N x)) (- (PI * ln (B2R x))) (8 * u * (PI * ln (B2R x))).
Proof.
  intros AP F H. pose proof gu as U. pose proof geta as T. pose proof (ln_gt1 x H) as L1. pose proof (ln_lt x H) as L2. set (l := ln (B2R x)) in *.
  pose proof (A_close _ _ _ _ (log_acc _ _ _ _ _ HL x F ltac:(lra))) as Al. fold l in Al. change (m_log _ _ L x) with (nlog N x) in Al. rewrite (Rabs_pos_eq l) in Al by lra.
  pose proof (A_opp _ _ Hp He L _ _ _ AP) as Ap.
  assert (P3 : 3.14 <= PI <= 3.15) by (split; interval). assert (ul : 0 <= u * l) by (apply Rmult_le_pos; lra).
  assert (tl : eta <= u * l / 2 ^ 18). { assert (u * u <= u * (2 * l)) by (apply Rmult_le_compat_l; lra). lra. }
  apply (A_weak _ _ _ _ _ (41 / 10 * (u * l))) in Al; [|lra].
  assert (ull : u * l <= / 2 ^ 17 * l) by (apply Rmult_le_compat_r; lra). assert (uul : 0 <= u * (u * l) <= / 2 ^ 17 * (u * l)) by (split; [apply Rmult_le_pos; lra|apply Rmult_le_compat_r; lra]).
  assert (Q1 : PI * (41 / 10 * (u * l)) = 41 / 10 * (PI * (u * l))) by ring. assert (Q2 : 3.14 * (u * l) <= PI * (u * l) <= 3.15 * (u * l)) by (split; apply Rmult_le_compat_r; lra).
  assert (Q3 : 3.14 * l <= PI * l <= 3.15 * l) by (split; apply Rmult_le_compat_r; lra).
  refine (A_weak _ _ _ _ _ _ (eq_ind _ (fun v => A _ v _) (A_mul _ _ Hp He ltac:(lia) ltac:(lia) ltac:(lia) L _ _ _ _ _ _ PI l (PI * l + l / 100) Ap Al _ _ _ _) _ _) _).
  - rewrite Rabs_Ropp, Rabs_pos_eq; lra.
  - rewrite Rabs_pos_eq; lra.
  - rewrite Q1. replace (l * (4 * u)) with (4 * (u * l)) by ring. replace (4 * u * (41 / 10 * (u * l))) with (82 / 5 * (u * (u * l))) by field. lra.
  - apply Rle_trans with (bpow radix2 17); [replace (bpow radix2 17) with (2 ^ 17) by (rewrite bpow_powerRZ; reflexivity); lra|apply bpow_le; lia].
  - ring.
  - rewrite Q1. replace (l * (4 * u)) with (4 * (u * l)) by ring. replace (4 * u * (41 / 10 * (u * l))) with (82 / 5 * (u * (u * l))) by field. replace (u * (PI * l + l / 100)) with (PI * (u * l) + u * l / 100) by field. replace (8 * u * (PI * l)) with (8 * (PI * (u * l))) by ring. lra.
Qed.
(** the C99/C++ comparisons at the start of the functions *)
Lemma eq0 (f : binary_float prec emax) : B2R f = 0 -> is_finite f = true -> eqb N f (lit N 0 0) = true.
Proof.
  intros H F. destruct (litZ_exact prec emax Hp He ltac:(lia) 0 ltac:(lia)) as [P Q]. change (eqb N f (lit N 0 0)) with (Beqb f (blit prec emax Hp He 0 0)).
  rewrite Beqb_correct by assumption. rewrite H. change (lit N 0 0) with (blit prec emax Hp He 0 0) in *. rewrite P. apply Req_bool_true. reflexivity.
Qed.
Lemma le1 (x : binary_float prec emax) : is_finite x = true -> leb N x (lit N 1 0) = if Rle_dec (B2R x) 1 then true else false.
Proof.
  intros F. assert (B : (1 <= 2 ^ prec)%Z) by (replace 1%Z with (2 ^ 0)%Z by reflexivity; apply Z.pow_le_mono_r; lia). destruct (litZ_exact prec emax Hp He ltac:(lia) 1 ltac:(lia)) as [P Q]. change (leb N x (lit N 1 0)) with (Bleb x (blit prec emax Hp He 1 0)).
  rewrite Bleb_correct by assumption. rewrite P. destruct (Rle_dec (B2R x) 1); [apply Rle_bool_true; assumption|apply Rle_bool_false; lra].
Qed.
End G.

Section D.
Variable L : libm 53 1024.
Hypothesis HL : libm_ok (Hp := Hp53) (He := He53) L.
Notation N := (B64 L).
Notation E := (E).
Lemma E_PI : E (lit N 31415926535897932 (-16)) PI PI 1.6.
Proof.
  assert (P3 : 3.14 <= PI <= 3.15) by (split; interval). apply E_lit; [|rewrite Rabs_pos_eq; lra|lra].
  unfold litR. cbn [Z.leb Z.compare Z.opp]. change (IZR (10 ^ 16)) with 10000000000000000. apply Rabs_le. split; interval with (i_prec 80).
Qed.
Lemma E_ln (x : binary_float 53 1024) : is_finite x = true -> 1 < B2R x -> E (nlog N x) (ln (B2R x)) (ln (B2R x)) 5 /\ u / 2 <= ln (B2R x) <= 1000.
Proof.
  intros F H. pose proof (ln_gt1 53 1024 ltac:(lia) ltac:(lia) x H) as L1.
  assert (K : B2R x < bpow radix2 1024) by (eapply Rle_lt_trans; [apply Rle_abs|apply abs_B2R_lt_emax]).
  assert (L2 : ln (B2R x) <= 1000).
  { apply Rle_trans with (ln (bpow radix2 1024)); [apply ln_le; lra|]. rewrite bpow_exp, ln_exp. change (IZR radix2) with 2. assert (0 < ln 2 <= 0.7) by (split; interval). lra. }
  pose proof u_b as U. split; [|lra]. pose proof (E_log L HL x F ltac:(lra)) as Q. rewrite Rabs_pos_eq in Q by lra. apply Q; lra.
Qed.
Lemma pow_rng l k : u / 2 <= l <= 1000 -> (k <= 3)%nat -> u * u * u / 8 <= l ^ k <= 10 ^ 9.
Proof.
  intros H K. pose proof u_b as U. assert (u * u <= u * 1) by (apply Rmult_le_compat_l; lra). assert (u * u <= / 10 ^ 15 * / 10 ^ 15) by (apply Rmult_le_compat; lra). assert (0 < u * u) by (apply Rmult_lt_0_compat; lra).
  assert (u * u * u <= u * u * 1) by (apply Rmult_le_compat_l; lra). assert (0 < u * u * u) by (apply Rmult_lt_0_compat; lra).
  assert (C2 : u / 2 * (u / 2) <= l * l <= 1000 * 1000) by (split; apply Rmult_le_compat; lra). assert (C3 : u / 2 * (u / 2) * (u / 2) <= l * l * l <= 1000 * 1000 * 1000) by (split; apply Rmult_le_compat; try lra; apply Rmult_le_pos; lra).
  assert (I : k = 0%nat \/ k = 1%nat \/ k = 2%nat \/ k = 3%nat) by lia. destruct I as [->|[->|[->| ->]]]; cbn [pow]; lra.
Qed.
Lemma Vrng c v : u * u * u / 8 <= v <= 10 ^ 9 -> / 10 <= c <= 4 -> Vlo <= c * v <= Vhi.
Proof.
  intros H C. pose proof Vlo_u4 as V4. pose proof Vhi_ge as VH. pose proof u_b as U. assert (0 < u * u) by (apply Rmult_lt_0_compat; lra). assert (0 < u * u * u) by (apply Rmult_lt_0_compat; lra).
  assert (u * u * u * u <= u * u * u * 1) by (apply Rmult_le_compat_l; lra). assert (/ 10 * v <= c * v <= 4 * v) by (split; apply Rmult_le_compat_r; lra). split; lra.
Qed.
Lemma im3 (x : binary_float 53 1024) : is_finite x = true -> 1 < B2R x ->
  A (mul N (mul N (mul N (lit N (-5) (-1)) (lit N 31415926535897932 (-16))) (nlog N x)) (nlog N x)) (- (PI * ln (B2R x) ^ 2 / 2)) (15 * u * (PI * ln (B2R x) ^ 2 / 2)).
Proof.
  intros F H. destruct (E_ln x F H) as [El R1]. set (l := ln (B2R x)) in *. assert (P3 : 3.14 <= PI <= 3.15) by (split; interval).
  pose proof (E_mul L _ _ _ _ _ _ _ _ (E_mhalf L) E_PI ltac:(pose proof Vlo_le; pose proof Vhi_ge; lra) ltac:(lra)) as E1.
  pose proof (Vrng (/ 2 * PI) _ (pow_rng l 1 R1 ltac:(lia)) ltac:(lra)) as V1. pose proof (Vrng (/ 2 * PI) _ (pow_rng l 2 R1 ltac:(lia)) ltac:(lra)) as V2. cbn [pow] in V1, V2. rewrite Rmult_1_r in *.
  pose proof (E_mul L _ _ _ _ _ _ _ _ E1 El V1 ltac:(lra)) as E2. rewrite <- (Rmult_assoc (/ 2 * PI)) in V2.
  pose proof (E_mul L _ _ _ _ _ _ _ _ E2 El V2 ltac:(lra)) as E3. pose proof u_b as U. pose proof Vlo_pos as VP.
  apply A_E in E3. refine (A_weak _ _ _ _ _ _ (eq_ind _ (fun v => A _ v _) E3 _ _) _); [cbn [pow]; field|].
  replace (PI * l ^ 2 / 2) with (/ 2 * PI * l * l) by (cbn [pow]; field). set (V := / 2 * PI * l * l) in *. assert (0 <= u * V) by (apply Rmult_le_pos; lra).
  replace (15 * u * V) with (15 * (u * V)) by ring. match goal with |- ?c * _ * _ <= _ => replace (c * u * V) with (c * (u * V)) by ring end. apply Rmult_le_compat_r; lra.
Qed.
Lemma im4 (x : binary_float 53 1024) : is_finite x = true -> 1 < B2R x ->
  A (mul N (mul N (mul N (mul N (div N (lit N (-1) 0) (lit N 6 0)) (lit N 31415926535897932 (-16))) (nlog N x)) (nlog N x)) (nlog N x)) (- (PI * ln (B2R x) ^ 3 / 6)) (25 * u * (PI * ln (B2R x) ^ 3 / 6)).
Proof.
  intros F H. destruct (E_ln x F H) as [El R1]. set (l := ln (B2R x)) in *. assert (P3 : 3.14 <= PI <= 3.15) by (split; interval).
  pose proof (E_quot L (-1) 6 ltac:(lia) ltac:(lia)) as E0. replace (Rabs (-1) / 6) with (/ 6) in E0 by (rewrite Rabs_left; lra).
  pose proof (E_mul L _ _ _ _ _ _ _ _ E0 E_PI ltac:(pose proof Vlo_le; pose proof Vhi_ge; lra) ltac:(lra)) as E1.
  pose proof (Vrng (/ 6 * PI) _ (pow_rng l 1 R1 ltac:(lia)) ltac:(lra)) as V1. pose proof (Vrng (/ 6 * PI) _ (pow_rng l 2 R1 ltac:(lia)) ltac:(lra)) as V2. pose proof (Vrng (/ 6 * PI) _ (pow_rng l 3 R1 ltac:(lia)) ltac:(lra)) as V3. cbn [pow] in V1, V2, V3. rewrite Rmult_1_r in *.
  pose proof (E_mul L _ _ _ _ _ _ _ _ E1 El V1 ltac:(lra)) as E2. rewrite <- (Rmult_assoc (/ 6 * PI)) in V2, V3. rewrite <- (Rmult_assoc (/ 6 * PI * l)) in V3.
  pose proof (E_mul L _ _ _ _ _ _ _ _ E2 El V2 ltac:(lra)) as E3. pose proof (E_mul L _ _ _ _ _ _ _ _ E3 El V3 ltac:(lra)) as E4. pose proof u_b as U. pose proof Vlo_pos as VP.
  apply A_E in E4. refine (A_weak _ _ _ _ _ _ (eq_ind _ (fun v => A _ v _) E4 _ _) _); [cbn [pow]; field|].
  replace (PI * l ^ 3 / 6) with (/ 6 * PI * l * l * l) by (cbn [pow]; field). set (V := / 6 * PI * l * l * l) in *. assert (0 <= u * V) by (apply Rmult_le_pos; lra).
  replace (25 * u * V) with (25 * (u * V)) by ring. match goal with |- ?c * _ * _ <= _ => replace (c * u * V) with (c * (u * V)) by ring end. apply Rmult_le_compat_r; lra.
Qed.
End D.
