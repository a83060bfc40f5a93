(** * The complex polylogarithms on the real axis: continuity up to the cut *)
From Coq Require Import ZArith Reals List Bool Lra Lia Psatz.
From Coquelicot Require Import Coquelicot.
From Interval Require Import Tactic.
From Verif Require Import Num NumR Spec Eval_R Consts Cplx Ccalc CLi CLi_disc CLi_inv Cpoly CLi_unity CLi_T Polylog Clausen CLi_ref CLi_region Rest CLi_code CLi_eval CLi_dev CLi_rest CLi_acc.
Import ListNotations.
Local Open Scope R_scope.

Lemma ccont_eps f t : (forall e, 0 < e -> exists d, 0 < d /\ forall s, Rabs (s - t) < d -> Cmod (Cminus (f s) (f t)) < e) -> ccont f t.
Proof.
  intros H. split; intros P [e He]; destruct (H e (cond_pos e)) as (d & Hd & K); exists (mkposreal d Hd); intros s Hs; apply He; (eapply Rle_lt_trans; [|apply (K s Hs)]).
  - apply (Cmod_fst (Cminus (f s) (f t))).
  - apply (Cmod_snd (Cminus (f s) (f t))).
Qed.
Lemma ccont_to_eps f t : ccont f t -> forall e, 0 < e -> exists d, 0 < d /\ forall s, Rabs (s - t) < d -> Cmod (Cminus (f s) (f t)) < e.
Proof.
  intros [A1 A2] e He.
  assert (L1 : locally t (fun s => Rabs (fst (f s) - fst (f t)) < e / 2)).
  { apply (A1 (fun v => Rabs (v - fst (f t)) < e / 2)). exists (mkposreal (e / 2) ltac:(lra)). intros y Hy. exact Hy. }
  assert (L2 : locally t (fun s => Rabs (snd (f s) - snd (f t)) < e / 2)).
  { apply (A2 (fun v => Rabs (v - snd (f t)) < e / 2)). exists (mkposreal (e / 2) ltac:(lra)). intros y Hy. exact Hy. }
  destruct (filter_and _ _ L1 L2) as [d Hd]. exists d. split; [apply cond_pos|]. intros s Hs. destruct (Hd s Hs) as [D1 D2].
  eapply Rle_lt_trans; [apply Cmod_le_sum|]. change (fst (Cminus (f s) (f t))) with (fst (f s) - fst (f t)). change (snd (Cminus (f s) (f t))) with (snd (f s) - snd (f t)). lra.
Qed.
(** ** Lipschitz inside the disc *)
Lemma Cpow_mod z k : Cmod (Cpow z k) = Cmod z ^ k.
Proof. induction k as [|k IH]; [apply Cmod_1|]. cbn [Cpow pow]. rewrite Cmod_mult, IH. reflexivity. Qed.
Lemma pow_diff r z1 z2 k : Cmod z1 <= r -> Cmod z2 <= r -> Cmod (Cminus (Cpow z1 (S k)) (Cpow z2 (S k))) <= INR (S k) * (r ^ k * Cmod (Cminus z1 z2)).
Proof.
  intros H1 H2. assert (R0 : 0 <= r) by (pose proof (Cmod_ge_0 z1); lra). induction k as [|k IH].
  - cbn [Cpow pow]. replace (INR 1) with 1 by reflexivity. right. replace (Cminus (Cmult z1 (RtoC 1)) (Cmult z2 (RtoC 1))) with (Cminus z1 z2) by ring. ring.
  - rewrite (S_INR (S k)). change (Cpow z1 (S (S k))) with (Cmult z1 (Cpow z1 (S k))). change (Cpow z2 (S (S k))) with (Cmult z2 (Cpow z2 (S k))).
    replace (Cminus (Cmult z1 (Cpow z1 (S k))) (Cmult z2 (Cpow z2 (S k)))) with (Cplus (Cmult z1 (Cminus (Cpow z1 (S k)) (Cpow z2 (S k)))) (Cmult (Cminus z1 z2) (Cpow z2 (S k)))) by ring.
    eapply Rle_trans; [apply Cmod_triangle|]. rewrite !Cmod_mult, Cpow_mod. set (d := Cmod (Cminus z1 z2)) in *. assert (D0 : 0 <= d) by apply Cmod_ge_0.
    assert (A : Cmod z1 * Cmod (Cminus (Cpow z1 (S k)) (Cpow z2 (S k))) <= r * (INR (S k) * (r ^ k * d))) by (apply Rmult_le_compat; [apply Cmod_ge_0|apply Cmod_ge_0|exact H1|exact IH]).
    assert (B : d * Cmod z2 ^ S k <= d * r ^ S k) by (apply Rmult_le_compat_l; [exact D0|]; apply pow_incr; split; [apply Cmod_ge_0|exact H2]). cbn [pow] in *.
    set (q := r ^ k) in *. lra.
Qed.
Lemma psum_lip n r z1 z2 K : (1 <= n)%nat -> r < 1 -> Cmod z1 <= r -> Cmod z2 <= r ->
  Cmod (Cminus (Csum (pterm n z1) K) (Csum (pterm n z2) K)) <= Cmod (Cminus z1 z2) * ((1 - r ^ K) / (1 - r)).
Proof.
  intros Hn Hr H1 H2. assert (R0 : 0 <= r) by (pose proof (Cmod_ge_0 z1); lra). induction K as [|K IH].
  - cbn [Csum pow]. replace (Cminus (RtoC 0) (RtoC 0)) with (RtoC 0) by ring. rewrite Cmod_0. right. unfold Rdiv. ring.
  - cbn [Csum]. replace (Cminus (Cplus (Csum (pterm n z1) K) (pterm n z1 K)) (Cplus (Csum (pterm n z2) K) (pterm n z2 K))) with (Cplus (Cminus (Csum (pterm n z1) K) (Csum (pterm n z2) K)) (Cminus (pterm n z1 K) (pterm n z2 K))) by ring.
    eapply Rle_trans; [apply Cmod_triangle|]. set (d := Cmod (Cminus z1 z2)) in *. assert (D0 : 0 <= d) by apply Cmod_ge_0.
    assert (T : Cmod (Cminus (pterm n z1 K) (pterm n z2 K)) <= d * r ^ K).
    { unfold pterm. pose proof (INRS_C K n) as A. replace (Cminus (Cdiv (Cpow z1 (S K)) (RtoC (INR (S K) ^ n))) (Cdiv (Cpow z2 (S K)) (RtoC (INR (S K) ^ n)))) with (Cdiv (Cminus (Cpow z1 (S K)) (Cpow z2 (S K))) (RtoC (INR (S K) ^ n))) by (field; exact A).
      rewrite Cmod_div, Cmod_R by exact A. assert (I1 : 1 <= INR (S K)) by (apply (le_INR 1); lia). assert (P : INR (S K) <= INR (S K) ^ n). { destruct n as [|m]; [lia|]. cbn [pow]. assert (1 <= INR (S K) ^ m) by (apply pow_R1_Rle; exact I1). rewrite <- (Rmult_1_r (INR (S K))) at 1. apply Rmult_le_compat_l; lra. }
      rewrite Rabs_pos_eq by lra. apply Rmult_le_reg_r with (INR (S K) ^ n); [lra|]. unfold Rdiv. rewrite Rmult_assoc, Rinv_l, Rmult_1_r by lra. eapply Rle_trans; [apply (pow_diff r); assumption|]. fold d.
      rewrite (Rmult_comm (d * r ^ K)). rewrite (Rmult_comm d). apply Rmult_le_compat_r; [apply Rmult_le_pos; [apply pow_le; exact R0|exact D0]|exact P]. }
    cbn [pow]. replace (d * ((1 - r * r ^ K) / (1 - r))) with (d * ((1 - r ^ K) / (1 - r)) + d * r ^ K) by (field; lra). lra.
Qed.
Theorem CLi_lip n r z1 z2 : (1 <= n)%nat -> r < 1 -> Cmod z1 <= r -> Cmod z2 <= r -> Cmod (Cminus (CLi n z1) (CLi n z2)) <= Cmod (Cminus z1 z2) / (1 - r).
Proof.
  intros Hn Hr H1 H2. assert (R0 : 0 <= r) by (pose proof (Cmod_ge_0 z1); lra). apply le_epsilon. intros e He.
  assert (EP : 0 < e * (1 - r) / 4) by (apply Rmult_lt_0_compat; [apply Rmult_lt_0_compat; lra|lra]).
  destruct (pow_lt_1_zero r ltac:(rewrite Rabs_pos_eq; lra) _ EP) as [K HK]. specialize (HK (S K) ltac:(lia)). rewrite Rabs_pos_eq in HK by (apply pow_le; exact R0).
  assert (RM : forall z, Cmod z <= r -> Cmod (Cminus (CLi n z) (Csum (pterm n z) K)) <= e / 2).
  { intros z Hz. eapply Rle_trans; [apply disc_remainder; [exact Hn|lra]|]. assert (P : Cmod z ^ S K <= e * (1 - r) / 4) by (apply Rle_trans with (r ^ S K); [apply pow_incr; split; [apply Cmod_ge_0|exact Hz]|lra]).
    assert (Q : / (1 - Cmod z) <= / (1 - r)) by (apply Rinv_le_contravar; lra). assert (Q0 : 0 < / (1 - Cmod z)) by (apply Rinv_0_lt_compat; lra).
    assert (M : Cmod z ^ S K * / (1 - Cmod z) <= e * (1 - r) / 4 * / (1 - r)) by (apply Rmult_le_compat; [apply pow_le, Cmod_ge_0|lra|exact P|exact Q]).
    replace (e * (1 - r) / 4 * / (1 - r)) with (e / 4) in M by (field; lra). unfold Rdiv at 1. lra. }
  pose proof (RM _ H1) as A1. pose proof (RM _ H2) as A2. pose proof (psum_lip n r z1 z2 K Hn Hr H1 H2) as A3.
  set (s1 := Csum (pterm n z1) K) in *. set (s2 := Csum (pterm n z2) K) in *.
  replace (Cminus (CLi n z1) (CLi n z2)) with (Cplus (Cplus (Cminus (CLi n z1) s1) (Copp (Cminus (CLi n z2) s2))) (Cminus s1 s2)) by ring.
  eapply Rle_trans; [apply Cmod_triangle|]. pose proof (Cmod_triangle (Cminus (CLi n z1) s1) (Copp (Cminus (CLi n z2) s2))) as T. rewrite Cmod_opp in T.
  assert (B : Cmod (Cminus z1 z2) * ((1 - r ^ K) / (1 - r)) <= Cmod (Cminus z1 z2) / (1 - r)).
  { unfold Rdiv. rewrite <- Rmult_assoc. apply Rmult_le_compat_r; [apply Rlt_le, Rinv_0_lt_compat; lra|]. rewrite <- (Rmult_1_r (Cmod (Cminus z1 z2))) at 2. apply Rmult_le_compat_l; [apply Cmod_ge_0|]. pose proof (pow_le r K R0). lra. }
  lra.
Qed.
Lemma ccont_CLi n g t : (1 <= n)%nat -> Cmod (g t) < 1 -> ccont g t -> ccont (fun s => CLi n (g s)) t.
Proof.
  intros Hn H C. apply ccont_eps. intros e He. set (r := (1 + Cmod (g t)) / 2). assert (R1 : Cmod (g t) < r < 1) by (unfold r; lra).
  destruct (ccont_to_eps g t C (Rmin (r - Cmod (g t)) (e * (1 - r)))) as (d & Hd & K); [apply Rmin_glb_lt; [lra|apply Rmult_lt_0_compat; lra]|].
  exists d. split; [exact Hd|]. intros s Hs. specialize (K s Hs). pose proof (Rmin_l (r - Cmod (g t)) (e * (1 - r))). pose proof (Rmin_r (r - Cmod (g t)) (e * (1 - r))).
  assert (G : Cmod (g s) <= r). { replace (g s) with (Cplus (Cminus (g s) (g t)) (g t)) by ring. eapply Rle_trans; [apply Cmod_triangle|]. lra. }
  eapply Rle_lt_trans; [apply (CLi_lip n r); [exact Hn|lra|exact G|lra]|]. apply Rmult_lt_reg_r with (1 - r); [lra|]. unfold Rdiv. rewrite Rmult_assoc, Rinv_l, Rmult_1_r by lra. lra.
Qed.
Lemma ccont_pow f t n : ccont f t -> ccont (fun s => Cpow (f s) n) t.
Proof. intros H. induction n as [|n IH]; [apply (ccont_const (RtoC 1))|]. cbn [Cpow]. apply ccont_mult; [exact H|exact IH]. Qed.
Lemma ccont_cpev l f t : ccont f t -> ccont (fun s => cpev l (f s)) t.
Proof. intros H. induction l as [|c l IH]; cbn [cpev]; [apply ccont_const|]. apply ccont_plus; [apply ccont_const|]. apply ccont_mult; [exact H|exact IH]. Qed.
Lemma ccont_restC c g n f t : ccont f t -> ccont (fun s => restC c g n (f s)) t.
Proof.
  intros H. unfold restC. generalize (S n) as k. intros k. induction k as [|k IH]; cbn [Csum]; [apply ccont_const|]. apply ccont_plus; [exact IH|]. apply ccont_mult; [apply ccont_const|apply ccont_pow, H].
Qed.
Lemma ccont_Clog f t d : offneg (f t) -> cder f t d -> ccont (fun s => Clog (f s)) t.
Proof. intros H D. eapply cder_cont. apply cder_Clog; [exact H|exact D]. Qed.
(** ** the value on the cut: limit from below *)
Definition low (n : nat) (x : R) : C := Cminus (restC neg_eta_true inv_fact n (ln x, PI)) (RtoC ((-1) ^ n * ReLi n (/ x))).
Lemma Clog_pt a b w : Cexp (a, b) = w -> - PI < b <= PI -> Clog w = (a, b).
Proof. intros E H. symmetry. apply Clog_unique. split; [exact E|exact H]. Qed.
Lemma restC_conj c f n L : restC c f n (Cconj L) = Cconj (restC c f n L).
Proof.
  unfold restC. generalize (S n) as k. intros k. induction k as [|k IH]; cbn [Csum]; [symmetry; apply Cconj_R|]. rewrite IH, Cconj_plus, Cconj_mult, Cconj_R, Cpow_conj. reflexivity.
Qed.
Lemma Cexp_opp w : Cinv (Cexp w) = Cexp (Copp w).
Proof.
  assert (X : Cmult (Cexp w) (Cexp (Copp w)) = RtoC 1).
  { destruct w as [a b]. unfold Cexp, Copp, Cmult, RtoC. cbn [fst snd]. rewrite exp_Ropp, cos_neg, sin_neg. pose proof (exp_pos a). pose proof (sin2_cos2 b) as K. unfold Rsqr in K. f_equal; [|field; lra]. replace (exp a * cos b * (/ exp a * cos b) - exp a * sin b * (/ exp a * - sin b)) with (sin b * sin b + cos b * cos b) by (field; lra). exact K. }
  assert (N : Cexp w <> RtoC 0). { intros E. rewrite E in X. apply (f_equal fst) in X. unfold Cmult, RtoC in X. cbn [fst snd] in X. lra. }
  replace (Cexp (Copp w)) with (Cmult (Cinv (Cexp w)) (Cmult (Cexp w) (Cexp (Copp w)))) by (field; exact N). rewrite X. ring.
Qed.
Lemma Clog_neg_exp s y : 0 < y < PI -> Clog (Copp (Cexp (s, y))) = (s, y - PI).
Proof.
  intros H. apply Clog_pt; [|lra]. unfold Cexp, Copp. cbn [fst snd]. replace (y - PI) with (- (PI - y)) by ring. rewrite cos_neg, sin_neg, Rtrigo_facts.cos_pi_minus, sin_PI_x. f_equal; ring.
Qed.
Lemma Carg_pos z : 0 < snd z -> 0 < Carg z.
Proof. intros H. unfold Carg. rewrite atan2_pos by exact H. pose proof (atan_bound (fst z / snd z)). lra. Qed.
Lemma Carg_neg z : snd z < 0 -> Carg z < 0.
Proof. intros H. unfold Carg. rewrite atan2_negy by exact H. pose proof (atan_bound (fst z / snd z)). lra. Qed.
Lemma Clog_neg_up z : 0 < snd z -> Clog (Copp z) = Cminus (Clog z) (0, PI).
Proof. intros H. rewrite Clog_neg by lra. unfold lmz. pose proof (Carg_pos z H). destruct (Rlt_dec 0 (Carg z)); [|lra]. unfold Clog, Cminus, Cplus, Copp. cbn [fst snd]. f_equal; ring. Qed.
Lemma Clog_neg_down z : snd z < 0 -> Clog (Copp z) = Cplus (Clog z) (0, PI).
Proof. intros H. rewrite Clog_neg by lra. unfold lmz. pose proof (Carg_neg z H). destruct (Rlt_dec 0 (Carg z)); [lra|]. unfold Clog, Cplus. cbn [fst snd]. f_equal; ring. Qed.
Lemma Clog_real s : 0 < s -> Clog (RtoC s) = RtoC (ln s).
Proof. intros H. apply Clog_pt; [|pose proof PI_RGT_0; lra]. unfold Cexp, RtoC. cbn [fst snd]. rewrite cos_0, sin_0, exp_ln by exact H. f_equal; ring. Qed.
Lemma Clog_mreal s : 0 < s -> Clog (RtoC (- s)) = (ln s, PI).
Proof. intros H. apply Clog_pt; [|pose proof PI_RGT_0; lra]. unfold Cexp, RtoC. cbn [fst snd]. rewrite cos_PI, sin_PI, exp_ln by exact H. f_equal; ring. Qed.
Lemma small_pos (d m : posreal) : 0 < Rmin d m / 2 /\ Rmin d m / 2 < d /\ Rmin d m / 2 < m.
Proof. pose proof (cond_pos d). pose proof (cond_pos m). pose proof (Rmin_l d m). pose proof (Rmin_r d m). assert (0 < Rmin d m) by (apply Rmin_glb_lt; lra). lra. Qed.
Lemma mod_sy s y : Rabs s <= 1 -> 0 < y < / 10 -> Cmod (s, y) <= 11 / 10.
Proof. intros Hs Hy. eapply Rle_trans; [apply Cmod_le_sum|]. cbn [fst snd]. rewrite (Rabs_pos_eq y) by lra. lra. Qed.
Lemma ccont_y (s : R) t : ccont (fun y => (s, y)) t. Proof. eapply cder_cont. apply cder_y. Qed.
Lemma ccont_expy (s : R) t : ccont (fun y => Cexp (s, y)) t. Proof. eapply cder_cont. apply (cder_Cexp (fun y => (s, y))). apply cder_y. Qed.
Lemma unity_left n s : (n <= 5)%nat -> -1 <= s < 0 -> Cmod (EU (zl DD bz) (S n) (s, 0)) <= / 10 ^ 37.
Proof.
  intros Hn Hs. apply (ccont_bound (fun y => EU (zl DD bz) (S n) (s, y))).
  - unfold EU. apply ccont_minus; [apply ccont_minus|].
    + apply ccont_CLi; [lia| |apply ccont_expy]. rewrite Cmod_Cexp. cbn [fst]. rewrite <- exp_0. apply exp_increasing. lra.
    + apply ccont_cpev, ccont_y.
    + unfold Lm. apply ccont_mult; [apply ccont_mult; [apply ccont_const|apply ccont_pow, ccont_y]|]. apply ccont_minus; [apply ccont_const|].
      apply (ccont_Clog _ _ (Copp Ci)); [left; cbn; lra|]. apply (cder_opp (fun y => (s, y))), cder_y.
  - intros d. destruct (small_pos d (mkposreal (/ 10) ltac:(lra))) as (P1 & P2 & P3). cbn [pos] in P3. exists (Rmin d (mkposreal (/ 10) ltac:(lra)) / 2). cbn [pos]. set (y := Rmin d (/ 10) / 2) in *. change (Rmin d (mkposreal (/ 10) ltac:(lra)) / 2) with y in *.
    split; [rewrite Rminus_0_r, Rabs_pos_eq; lra|]. pose proof PI_RGT_0. assert (3 < PI) by interval. apply unity_up; [lia|cbn; lra|]. apply mod_sy; [rewrite Rabs_left; lra|lra].
Qed.
Lemma unity_right n s : (n <= 5)%nat -> 0 < s <= 1 -> Cmod (Cminus (Cminus (low (S n) (exp s)) (cpev (IG (zl DD bz) (S n)) (s, 0))) (Lm (S n) (s, 0))) <= / 10 ^ 37.
Proof.
  intros Hn Hs. set (b := zl DD bz).
  pose (H := fun y => Cminus (Cminus (Cminus (restC neg_eta_true inv_fact (S n) (s, y - PI)) (Cmult (RtoC ((-1) ^ S n)) (CLi (S n) (Cexp (Copp (s, y)))))) (cpev (IG b (S n)) (s, y)))
    (Cmult (Cmult (RtoC (inv_fact n)) (Cpow (s, y) n)) (Cminus (RtoC (Hm n)) (Cminus (Clog (s, y)) (0, PI))))).
  assert (B : Cmod (H 0) <= / 10 ^ 37).
  { apply (ccont_bound H).
    - unfold H. apply ccont_minus; [apply ccont_minus; [apply ccont_minus|]|].
      + apply ccont_restC. apply ccont_ext_loc with (fun y => Cminus (s, y) (0, PI)); [apply filter_forall; intros y; unfold Cminus, Cplus, Copp; cbn [fst snd]; f_equal; ring|]. apply ccont_minus; [apply ccont_y|apply ccont_const].
      + apply ccont_mult; [apply ccont_const|]. apply (ccont_CLi (S n) (fun y => Cexp (Copp (s, y)))); [lia| |].
        * rewrite Cmod_Cexp. cbn [fst Copp]. rewrite <- exp_0. apply exp_increasing. lra.
        * eapply cder_cont. apply (cder_Cexp (fun y => Copp (s, y))). apply (cder_opp (fun y => (s, y))), cder_y.
      + apply ccont_cpev, ccont_y.
      + apply ccont_mult; [apply ccont_mult; [apply ccont_const|apply ccont_pow, ccont_y]|]. apply ccont_minus; [apply ccont_const|]. apply ccont_minus; [|apply ccont_const].
        apply (ccont_Clog _ _ Ci); [left; cbn; lra|]. apply cder_y.
    - intros d. destruct (small_pos d (mkposreal (/ 10) ltac:(lra))) as (P1 & P2 & P3). cbn [pos] in P3. exists (Rmin d (mkposreal (/ 10) ltac:(lra)) / 2). cbn [pos]. set (y := Rmin d (/ 10) / 2) in *. change (Rmin d (mkposreal (/ 10) ltac:(lra)) / 2) with y in *.
      split; [rewrite Rminus_0_r, Rabs_pos_eq; lra|]. assert (PI3 : 3 < PI) by interval.
      assert (U1 : Cmod (EU b (S n) (s, y)) <= / 10 ^ 37) by (apply unity_up; [lia|cbn; lra|]; apply mod_sy; [rewrite Rabs_pos_eq; lra|lra]).
      replace (H y) with (EU b (S n) (s, y)); [exact U1|]. unfold EU, H. cbn [Lm]. f_equal; [f_equal|].
      + assert (NR : snd (Cexp (s, y)) <> 0). { unfold Cexp. cbn [snd fst]. pose proof (exp_pos s). assert (0 < sin y) by (apply sin_gt_0; lra). apply Rgt_not_eq, Rmult_lt_0_compat; assumption. }
        pose proof (CLi_inversion (S n) (Cexp (s, y)) (or_intror NR)) as IV. rewrite Clog_neg_exp in IV by lra. rewrite Cexp_opp in IV. rewrite <- IV. ring.
      + rewrite Clog_neg_up by (cbn; lra). reflexivity. }
  replace (Cminus (Cminus (low (S n) (exp s)) (cpev (IG b (S n)) (s, 0))) (Lm (S n) (s, 0))) with (Cconj (H 0)); [rewrite Cmod_conj'; exact B|].
  unfold H. cbn [Lm]. rewrite !Cconj_minus, !Cconj_mult, !Cconj_minus, !Cconj_R, <- restC_conj, <- cpev_conj, <- Cpow_conj.
  assert (C0 : Cconj (s, 0) = (s, 0)) by (unfold Cconj; cbn [fst snd]; f_equal; ring). rewrite C0. f_equal; [f_equal|].
  - unfold low. rewrite ln_exp. replace (Cconj (s, 0 - PI)) with (s, PI) by (unfold Cconj; cbn [fst snd]; f_equal; ring). f_equal.
    assert (EX : Cexp (Copp (s, 0)) = RtoC (/ exp s)) by (unfold Cexp, Copp, RtoC; cbn [fst snd]; rewrite Ropp_0, cos_0, sin_0, exp_Ropp; f_equal; ring). rewrite EX.
    rewrite CLi_real; [rewrite Cconj_R, <- RtoC_mult; reflexivity|lia|]. rewrite <- exp_Ropp, <- exp_0. apply exp_increasing. lra.
  - f_equal. f_equal. change (s, 0) with (RtoC s). rewrite Clog_real by lra. rewrite <- RtoC_opp, Clog_mreal by lra. unfold Cconj, Cminus, Cplus, Copp, RtoC. cbn [fst snd]. f_equal; ring.
Qed.
(** [low] is the limit of the principal branch from below *)
Theorem low_limit n x : (1 <= n)%nat -> 1 < x -> forall d, 0 < d -> exists y0, 0 < y0 /\ forall y, 0 < y < y0 -> Cmod (Cminus (CLi n (x, - y)) (low n x)) < d.
Proof.
  intros Hn Hx d Hd.
  pose (H := fun y => Cminus (restC neg_eta_true inv_fact n (Cplus (Clog (x, - y)) (0, PI))) (Cmult (RtoC ((-1) ^ n)) (CLi n (Cinv (x, - y))))).
  assert (CD : forall t, cder (fun y => (x, - y)) t (Copp Ci)).
  { intros t. apply cder_ext with (fun y => Cminus (RtoC x) (Cmult Ci (RtoC y))); [intros y; unfold Ci, RtoC, Cminus, Cplus, Copp, Cmult; cbn [fst snd]; f_equal; ring|].
    eapply cder_eq; [|apply cder_minus; [apply cder_const|apply cder_scal, cder_RtoC, (is_derive_id t)]]. unfold Ci, RtoC, Cminus, Cplus, Copp, Cmult, one. cbn. f_equal; ring. }
  assert (X0 : (x, - 0) = RtoC x) by (unfold RtoC; f_equal; ring).
  assert (XN : RtoC x <> RtoC 0) by (apply RtoC_neq; lra).
  assert (CI : Cinv (RtoC x) = RtoC (/ x)) by (rewrite RtoC_inv by lra; reflexivity).
  assert (XI : / x < 1) by (rewrite <- Rinv_1; apply Rinv_lt_contravar; lra). assert (XP : 0 < / x) by (apply Rinv_0_lt_compat; lra).
  assert (CH : ccont H 0).
  { unfold H. apply ccont_minus.
    - apply ccont_restC. apply ccont_plus; [|apply ccont_const]. apply (ccont_Clog (fun y => (x, - y)) 0 (Copp Ci)); [left; cbn [fst]; lra|apply CD].
    - apply ccont_mult; [apply ccont_const|]. apply (ccont_CLi n (fun y => Cinv (x, - y))); [exact Hn| |].
      + rewrite X0, CI, Cmod_R, Rabs_pos_eq; lra.
      + eapply cder_cont. apply (cder_inv (fun y => (x, - y))); [rewrite X0; exact XN|apply CD]. }
  assert (H0 : H 0 = low n x).
  { unfold H, low. rewrite X0, CI, (CLi_real n (/ x) Hn XI), <- RtoC_mult. rewrite Clog_real by lra. f_equal. f_equal. unfold Cplus, RtoC. cbn [fst snd]. f_equal; ring. }
  destruct (ccont_to_eps H 0 CH d Hd) as (y0 & Y0 & K). exists y0. split; [exact Y0|]. intros y Hy. specialize (K y ltac:(rewrite Rminus_0_r, Rabs_pos_eq; lra)). rewrite H0 in K.
  replace (CLi n (x, - y)) with (H y); [exact K|]. unfold H. rewrite <- Clog_neg_down by (cbn; lra).
  rewrite <- (CLi_inversion n (x, - y)) by (right; cbn; lra). ring.
Qed.
