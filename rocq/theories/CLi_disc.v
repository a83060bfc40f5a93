(** * The complex polylogarithm inside the unit disc (power series) and on the unit
      circle (Fourier series). Nothing here mentions the code. *)
From Coq Require Import ZArith Reals List Bool Lra Lia Psatz.
From Coquelicot Require Import Coquelicot.
From Verif Require Import NumR Spec Cplx Clog_series Chain Polylog Fourier Ccalc CLi Unity Rest.
Local Open Scope R_scope.

Definition pterm (n : nat) (z : C) (k : nat) : C := Cdiv (Cpow z (S k)) (RtoC (INR (S k) ^ n)).
Lemma RtoC_neq x : x <> 0 -> RtoC x <> RtoC 0. Proof. intros H E. apply H. unfold RtoC in E. congruence. Qed.
Lemma INRS_C k n : RtoC (INR (S k) ^ n) <> RtoC 0.
Proof. apply (RtoC_neq (INR (S k) ^ n)). apply pow_nonzero. apply not_0_INR. lia. Qed.
Lemma Cpow_ray t z n : Cpow (Cmult (RtoC t) z) n = Cmult (RtoC (t ^ n)) (Cpow z n).
Proof. induction n as [|n IH]; cbn [Cpow pow]; [ring|]. rewrite IH, RtoC_mult. ring. Qed.
Lemma Csum_0 f K : (forall k, f k = RtoC 0) -> Csum f K = RtoC 0.
Proof. intros H. induction K as [|K IH]; cbn [Csum]; [reflexivity|]. rewrite IH, H. ring. Qed.
Lemma psum_der n z K t : t <> 0 -> cder (fun s => Csum (pterm (S n) (Cmult (RtoC s) z)) K) t (Cdiv (Csum (pterm n (Cmult (RtoC t) z)) K) (RtoC t)).
Proof.
  intros Ht. assert (T : RtoC t <> RtoC 0) by (intros E; injection E; auto).
  induction K as [|K IH]; cbn [Csum].
  - eapply cder_eq; [|apply cder_const]. field. exact T.
  - eapply cder_eq; [|apply (cder_plus (fun s => Csum (pterm (S n) (Cmult (RtoC s) z)) K) (fun s => pterm (S n) (Cmult (RtoC s) z) K)); [exact IH|]].
    2:{ unfold pterm. apply (cder_mult (fun s => Cpow (Cmult (RtoC s) z) (S K)) (fun _ => Cinv (RtoC (INR (S K) ^ S n)))); [apply cder_pow, cder_ray|apply cder_const]. }
    cbv beta. unfold pterm. pose proof (INRS_C K n) as A. pose proof (INRS_C K 1) as B. rewrite pow_1 in B.
    replace (RtoC (INR (S K) ^ S n)) with (Cmult (RtoC (INR (S K))) (RtoC (INR (S K) ^ n))) by (rewrite <- RtoC_mult; reflexivity).
    rewrite (Cpow_S _ K). field. repeat split; assumption.
Qed.
Theorem disc_remainder n : (1 <= n)%nat -> forall z K, Cmod z < 1 ->
  Cmod (Cminus (CLi n z) (Csum (pterm n z) K)) <= 2 * (Cmod z ^ S K / (1 - Cmod z)).
Proof.
  intros Hn. induction n as [|n IH]; [lia|]. intros z K Hz. pose proof (Cmod_ge_0 z) as Z0.
  destruct n as [|n].
  - rewrite <- Cmod_opp. replace (Copp (Cminus (CLi 1 z) (Csum (pterm 1 z) K))) with (Cminus (Csum (logterm z) K) (Copp (Clog (Cminus (RtoC 1) z)))).
    + apply log_remainder. exact Hz.
    + cbn [CLi]. rewrite (Csum_ext_lt (logterm z) (pterm 1 z)); [ring|]. intros i _. unfold logterm, pterm. rewrite pow_1. reflexivity.
  - specialize (IH ltac:(lia)).
    set (f := fun t => Cminus (CLi (S (S n)) (Cmult (RtoC t) z)) (Csum (pterm (S (S n)) (Cmult (RtoC t) z)) K)).
    assert (SL : forall t, 0 <= t <= 1 -> Cmod (Cmult (RtoC t) z) < 1).
    { intros t Ht. rewrite Cmod_scal, Rabs_pos_eq by lra. nra. }
    assert (F0 : f 0 = RtoC 0).
    { unfold f. rewrite Cmult_0_l, CLi_0. rewrite (Csum_0 (pterm (S (S n)) (RtoC 0))); [ring|]. intros k. unfold pterm. rewrite Cpow_S. unfold Cdiv. ring. }
    replace (Cminus (CLi (S (S n)) z) (Csum (pterm (S (S n)) z) K)) with (Cminus (f 1) (f 0)).
    2:{ rewrite F0. unfold f. rewrite !Cmult_1_l. ring. }
    replace (2 * (Cmod z ^ S K / (1 - Cmod z))) with (2 * (Cmod z ^ S K / (1 - Cmod z)) * (1 - 0)) by ring.
    apply (cmv_M f (fun t => Cdiv (Cminus (CLi (S n) (Cmult (RtoC t) z)) (Csum (pterm (S n) (Cmult (RtoC t) z)) K)) (RtoC t))); [lra| | |].
    + intros t Ht. eapply cder_eq; [|apply cder_minus; [apply CLi_der; [lra|apply slit_small, SL; lra]|apply psum_der; lra]].
      unfold Cdiv. ring.
    + intros t Ht. apply ccont_minus; [apply CLi_ray_cont; [lra|apply slit_small, SL; lra]|].
      (* polynomial *)
      clear. induction K as [|K IH]; cbn [Csum]; [apply ccont_const|]. apply ccont_plus; [exact IH|]. unfold pterm, Cdiv.
      apply ccont_mult; [|apply ccont_const]. eapply cder_cont. apply cder_pow, cder_ray.
    + intros t Ht. assert (T : RtoC t <> RtoC 0) by (intros E; injection E; lra).
      rewrite Cmod_div, Cmod_R, Rabs_pos_eq by (exact T || lra). specialize (IH (Cmult (RtoC t) z) K (SL t ltac:(lra))).
      rewrite Cmod_scal, Rabs_pos_eq in IH by lra. apply Rmult_le_reg_r with t; [lra|]. unfold Rdiv. rewrite Rmult_assoc, Rinv_l, Rmult_1_r by lra.
      eapply Rle_trans; [exact IH|]. rewrite Rpow_mult_distr. unfold Rdiv.
      assert (0 <= Cmod z ^ S K) by (apply pow_le; exact Z0).
      assert (0 <= t ^ K <= 1). { split; [apply pow_le; lra|]. rewrite <- (pow1 K). apply pow_incr. lra. }
      assert (/ (1 - t * Cmod z) <= / (1 - Cmod z)) by (apply Rinv_le_contravar; nra).
      assert (0 < / (1 - t * Cmod z)) by (apply Rinv_0_lt_compat; nra).
      set (a := Cmod z ^ S K) in *. set (i1 := / (1 - t * Cmod z)) in *. set (i2 := / (1 - Cmod z)) in *. cbn [pow]. set (p := t ^ K) in *.
      assert (A1 : p * (a * i1) <= 1 * (a * i1)) by (apply Rmult_le_compat_r; [apply Rmult_le_pos; lra|lra]).
      assert (A2 : a * i1 <= a * i2) by (apply Rmult_le_compat_l; lra).
      replace (2 * (t * p * a * i1)) with (2 * t * (p * (a * i1))) by ring. replace (2 * (a * i2) * t) with (2 * t * (a * i2)) by ring.
      apply Rmult_le_compat_l; lra.
Qed.
(** the power series *)
Theorem disc_series n z : (1 <= n)%nat -> Cmod z < 1 -> Csums (pterm n z) (CLi n z).
Proof.
  intros Hn H. pose proof (Cmod_ge_0 z) as Z0.
  apply (Csums_bound _ _ (fun K => 2 * Cmod z / (1 - Cmod z) * Cmod z ^ K)).
  - intros K. rewrite <- Cmod_opp. replace (Copp (Cminus (Csum (pterm n z) K) (CLi n z))) with (Cminus (CLi n z) (Csum (pterm n z) K)) by ring.
    eapply Rle_trans; [apply disc_remainder; assumption|]. right. cbn [pow]. field. lra.
  - replace (Finite 0) with (Rbar_mult (2 * Cmod z / (1 - Cmod z)) 0) by (cbn; f_equal; ring). apply is_lim_seq_scal_l. apply lim_pow. lra.
Qed.

(** uniform tail bound for order >= 2 *)
Lemma psum_tail n z K d : (2 <= n)%nat -> Cmod z <= 1 -> (1 <= K)%nat ->
  Cmod (Cminus (Csum (pterm n z) (K + d)) (Csum (pterm n z) K)) <= / INR K - / INR (K + d).
Proof.
  intros Hn Hz HK. induction d as [|d IH].
  - rewrite Nat.add_0_r. replace (Cminus _ _) with (RtoC 0) by ring. rewrite Cmod_0. lra.
  - rewrite Nat.add_succ_r. cbn [Csum].
    replace (Cminus (Cplus (Csum (pterm n z) (K + d)) (pterm n z (K + d))) (Csum (pterm n z) K))
      with (Cplus (Cminus (Csum (pterm n z) (K + d)) (Csum (pterm n z) K)) (pterm n z (K + d))) by ring.
    eapply Rle_trans; [apply Cmod_triangle|].
    assert (Cmod (pterm n z (K + d)) <= / INR (K + d) - / INR (S (K + d))); [|lra].
    unfold pterm. rewrite Cmod_div, Cpow_mod, Cmod_R by apply INRS_C.
    pose proof (INR_S_pos (K + d)) as P1. assert (P0 : 0 < INR (K + d)) by (apply lt_0_INR; lia).
    rewrite Rabs_pos_eq by (apply pow_le; lra). unfold Rdiv.
    apply Rle_trans with (1 * / INR (S (K + d)) ^ 2).
    + apply Rmult_le_compat; [apply pow_le, Cmod_ge_0|left; apply Rinv_0_lt_compat, pow_lt; exact P1| |apply pow_inv_le; exact Hn].
      rewrite <- (pow1 (S (K + d))). apply pow_incr. split; [apply Cmod_ge_0|exact Hz].
    + rewrite Rmult_1_l. rewrite S_INR in *. set (x := INR (K + d)) in *. 
      replace (/ x - / (x + 1)) with (/ (x * (x + 1))) by (field; lra). apply Rinv_le_contravar; nra.
Qed.
Lemma disc_rate n z K : (2 <= n)%nat -> Cmod z < 1 -> (1 <= K)%nat -> Cmod (Cminus (CLi n z) (Csum (pterm n z) K)) <= / INR K.
Proof.
  intros Hn Hz HK. apply le_epsilon. intros e He.
  pose proof (disc_series n z ltac:(lia) Hz) as L. unfold Csums in L. apply is_lim_seq_spec in L. destruct (L (mkposreal e He)) as [J HJ].
  cbn in HJ. specialize (HJ (K + J)%nat ltac:(lia)). rewrite Rminus_0_r, Rabs_pos_eq in HJ by apply Cmod_ge_0.
  pose proof (psum_tail n z K J Hn ltac:(lra) HK) as T. assert (0 < / INR (K + J)) by (apply Rinv_0_lt_compat, lt_0_INR; lia).
  replace (Cminus (CLi n z) (Csum (pterm n z) K)) with (Cplus (Copp (Cminus (Csum (pterm n z) (K + J)) (CLi n z))) (Cminus (Csum (pterm n z) (K + J)) (Csum (pterm n z) K))) by ring.
  eapply Rle_trans; [apply Cmod_triangle|]. rewrite Cmod_opp. lra.
Qed.
Lemma ccont_bound (h : R -> C) t B : ccont h t -> (forall d : posreal, exists s, Rabs (s - t) < d /\ Cmod (h s) <= B) -> Cmod (h t) <= B.
Proof.
  intros [A1 A2] H. apply le_epsilon. intros e He.
  assert (L1 : locally t (fun s => Rabs (fst (h s) - fst (h t)) < e / 2)).
  { apply (A1 (fun v => Rabs (v - fst (h t)) < e / 2)). exists (mkposreal (e / 2) ltac:(lra)). intros y Hy. exact Hy. }
  assert (L2 : locally t (fun s => Rabs (snd (h s) - snd (h t)) < e / 2)).
  { apply (A2 (fun v => Rabs (v - snd (h t)) < e / 2)). exists (mkposreal (e / 2) ltac:(lra)). intros y Hy. exact Hy. }
  destruct (filter_and _ _ L1 L2) as [d Hd]. destruct (H d) as (s & Hs & Hb). destruct (Hd s Hs) as [D1 D2].
  replace (h t) with (Cplus (h s) (Copp (Cminus (h s) (h t)))) by ring. eapply Rle_trans; [apply Cmod_triangle|]. rewrite Cmod_opp.
  pose proof (Cmod_le_sum (Cminus (h s) (h t))) as Q. change (fst (Cminus (h s) (h t))) with (fst (h s) - fst (h t)) in Q. change (snd (Cminus (h s) (h t))) with (snd (h s) - snd (h t)) in Q. lra.
Qed.
Theorem circle_rate n z K : (2 <= n)%nat -> Cmod z <= 1 -> z <> RtoC 1 -> (1 <= K)%nat -> Cmod (Cminus (CLi n z) (Csum (pterm n z) K)) <= / INR K.
Proof.
  intros Hn Hz N1 HK. set (h := fun t => Cminus (CLi n (Cmult (RtoC t) z)) (Csum (pterm n (Cmult (RtoC t) z)) K)).
  replace (Cminus (CLi n z) (Csum (pterm n z) K)) with (h 1) by (unfold h; rewrite !Cmult_1_l; reflexivity).
  apply ccont_bound.
  - unfold h. apply ccont_minus.
    + destruct n as [|n]; [lia|]. apply CLi_ray_cont; [lra|]. rewrite Cmult_1_l. apply slit_le1; assumption.
    + destruct n as [|n]; [lia|]. eapply cder_cont. apply psum_der. lra.
  - intros d. set (s := Rmax (1 - d / 2) (/ 2)). exists s. pose proof (cond_pos d).
    assert (S1 : / 2 <= s < 1) by (unfold s, Rmax; destruct (Rle_dec (1 - d / 2) (/ 2)); lra).
    split.
    + rewrite Rabs_minus_sym, Rabs_pos_eq by lra. unfold s. pose proof (Rmax_l (1 - d / 2) (/ 2)). lra.
    + unfold h. apply disc_rate; [exact Hn| |exact HK]. rewrite Cmod_scal, Rabs_pos_eq by lra. pose proof (Cmod_ge_0 z). nra.
Qed.
Lemma Cmod_Cexp w : Cmod (Cexp w) = exp (fst w).
Proof.
  pose proof (exp_pos (fst w)) as E. rewrite Cmod_alt. unfold Cexp. cbn [fst snd].
  replace (exp (fst w) * cos (snd w) * (exp (fst w) * cos (snd w)) + exp (fst w) * sin (snd w) * (exp (fst w) * sin (snd w)))
    with (exp (fst w) * exp (fst w) * ((sin (snd w))² + (cos (snd w))²)) by (unfold Rsqr; ring).
  rewrite sin2_cos2, Rmult_1_r. apply sqrt_square. lra.
Qed.
Lemma psum_circle n y K : Csum (pterm n (Cexp (0, y))) (S K) = (pcos n K y, psin n K y).
Proof.
  assert (T : forall k, pterm n (Cexp (0, y)) k = (cterm n y k, sterm n y k)).
  { intros k. unfold pterm. rewrite <- Cexp_mult. replace (Cmult (RtoC (INR (S k))) (0, y)) with ((0, INR (S k) * y) : C) by (unfold Cmult, RtoC; cbn [fst snd]; f_equal; ring).
    unfold Cdiv. rewrite <- RtoC_inv by (apply pow_nonzero, not_0_INR; lia). unfold Cexp, cterm, sterm, Cmult, RtoC. cbn [fst snd]. rewrite exp_0. unfold Rdiv. f_equal; ring. }
  induction K as [|K IH].
  - cbn [Csum]. rewrite T, Cplus_0_l. reflexivity.
  - change (Csum (pterm n (Cexp (0, y))) (S (S K))) with (Cplus (Csum (pterm n (Cexp (0, y))) (S K)) (pterm n (Cexp (0, y)) (S K))). rewrite IH, T. reflexivity.
Qed.
(** on the unit circle: the Fourier series *)
Theorem CLi_circle n y : (2 <= n)%nat -> Cexp (0, y) <> RtoC 1 -> CLi n (Cexp (0, y)) = (cosser n y, sinser n y).
Proof.
  intros Hn N1.
  assert (M1 : Cmod (Cexp (0, y)) <= 1) by (rewrite Cmod_Cexp; cbn; rewrite exp_0; lra).
  assert (B : forall K, Rabs (fst (CLi n (Cexp (0, y))) - cosser n y) + Rabs (snd (CLi n (Cexp (0, y))) - sinser n y) <= 2 * / INR (S K) + 2 * rate 3 K).
  { intros K. pose proof (circle_rate n (Cexp (0, y)) (S K) Hn M1 N1 ltac:(lia)) as R. rewrite psum_circle in R.
    pose proof (Cmod_fst (Cminus (CLi n (Cexp (0, y))) (pcos n K y, psin n K y))) as F1.
    pose proof (Cmod_snd (Cminus (CLi n (Cexp (0, y))) (pcos n K y, psin n K y))) as F2.
    change (fst (Cminus (CLi n (Cexp (0, y))) (pcos n K y, psin n K y))) with (fst (CLi n (Cexp (0, y))) + - pcos n K y) in F1.
    change (snd (Cminus (CLi n (Cexp (0, y))) (pcos n K y, psin n K y))) with (snd (CLi n (Cexp (0, y))) + - psin n K y) in F2.
    pose proof (cosser_rate n K y Hn) as G1. pose proof (sinser_rate n K y Hn) as G2.
    set (a := fst (CLi n (Cexp (0, y)))) in *. set (b := snd (CLi n (Cexp (0, y)))) in *.
    replace (a - cosser n y) with ((a + - pcos n K y) + (pcos n K y - cosser n y)) by ring.
    replace (b - sinser n y) with ((b + - psin n K y) + (psin n K y - sinser n y)) by ring.
    eapply Rle_trans; [apply Rplus_le_compat; apply Rabs_triang|]. lra. }
  assert (L : is_lim_seq (fun K => 2 * / INR (S K) + 2 * rate 3 K) 0).
  { replace (Finite 0) with (Finite (2 * 0 + 2 * 0)) by (f_equal; ring).
    apply is_lim_seq_plus'.
    - apply is_lim_seq_scal_l with (lu := Finite 0). apply (is_lim_seq_incr_1 (fun n => / INR n)). apply (is_lim_seq_inv INR p_infty); [apply is_lim_seq_INR|discriminate].
    - apply is_lim_seq_scal_l with (lu := Finite 0). apply rate_lim. }
  set (D := Rabs (fst (CLi n (Cexp (0, y))) - cosser n y) + Rabs (snd (CLi n (Cexp (0, y))) - sinser n y)) in *.
  assert (D0 : D <= 0).
  { assert (Rbar_le (Finite D) (Finite 0)); [|exact H]. apply (is_lim_seq_le (fun _ => D) (fun K => 2 * / INR (S K) + 2 * rate 3 K)); [exact B|apply is_lim_seq_const|exact L]. }
  unfold D in D0. pose proof (Rabs_pos (fst (CLi n (Cexp (0, y))) - cosser n y)). pose proof (Rabs_pos (snd (CLi n (Cexp (0, y))) - sinser n y)).
  assert (Z1 : fst (CLi n (Cexp (0, y))) - cosser n y = 0) by (apply Rabs_eq_0; lra).
  assert (Z2 : snd (CLi n (Cexp (0, y))) - sinser n y = 0) by (apply Rabs_eq_0; lra).
  apply injective_projections; cbn [fst snd]; lra.
Qed.
Lemma Clog1m_circle y : 0 < y < 2 * PI -> Copp (Clog (Cminus (RtoC 1) (Cexp (0, y)))) = (- ln (2 * sin (y / 2)), (PI - y) / 2).
Proof.
  intros H. assert (S : 0 < sin (y / 2)) by (apply sin_gt_0; lra).
  replace (- ln (2 * sin (y / 2)), (PI - y) / 2) with (Copp (ln (2 * sin (y / 2)), (y - PI) / 2)) by (unfold Copp; cbn; f_equal; field).
  f_equal. symmetry. apply Clog_unique. split.
  - unfold Cexp, Cminus, Cplus, Copp, RtoC. cbn [fst snd]. rewrite exp_ln, exp_0 by lra.
    replace ((y - PI) / 2) with (- (PI / 2 - y / 2)) by field. rewrite cos_neg, sin_neg, cos_shift, sin_shift.
    assert (C2 : cos y = 1 - 2 * sin (y / 2) * sin (y / 2)) by (rewrite <- cos_2a_sin; f_equal; field).
    assert (S2 : sin y = 2 * sin (y / 2) * cos (y / 2)) by (rewrite <- sin_2a; f_equal; field).
    rewrite C2, S2. f_equal; ring.
  - cbn [snd]. lra.
Qed.
Lemma circle_ne1 y : 0 < y < 2 * PI -> Cexp (0, y) <> RtoC 1.
Proof.
  intros H E. unfold Cexp, RtoC in E. cbn [fst snd] in E. rewrite exp_0 in E. injection E as E1 E2.
  assert (S : 0 < sin (y / 2)) by (apply sin_gt_0; lra). replace y with (2 * (y / 2)) in E1 by field. rewrite cos_2a_sin in E1. nra.
Qed.
Theorem CLi_circle_der n y : 0 < y < 2 * PI -> (1 <= n)%nat -> cder (fun y => CLi (S n) (Cexp (0, y))) y (Cmult Ci (CLi n (Cexp (0, y)))).
Proof.
  intros H Hn.
  apply (cder_ext_loc (fun y => (cosser (S n) y, sinser (S n) y))).
  - apply (locally_interval _ y 0 (2 * PI)); [apply H|apply H|]. intros s S1 S2. symmetry. apply CLi_circle; [lia|apply circle_ne1; split; assumption].
  - destruct n as [|n]; [lia|]. destruct n as [|n].
    + cbn [CLi]. rewrite Clog1m_circle by exact H. split; unfold Ci, Cmult; cbn [fst snd].
      * replace (0 * - ln (2 * sin (y / 2)) - 1 * ((PI - y) / 2)) with (- ((PI - y) / 2)) by ring. apply cosser_2_derive. exact H.
      * replace (0 * ((PI - y) / 2) + 1 * - ln (2 * sin (y / 2))) with (- ln (2 * sin (y / 2))) by ring. apply sinser_2_derive. exact H.
    + rewrite CLi_circle by (try lia; apply circle_ne1; exact H). split; unfold Ci, Cmult; cbn [fst snd].
      * replace (0 * cosser (S (S n)) y - 1 * sinser (S (S n)) y) with (- sinser (S (S n)) y) by ring. apply cosser_derive. lia.
      * replace (0 * sinser (S (S n)) y + 1 * cosser (S (S n)) y) with (cosser (S (S n)) y) by ring. apply sinser_derive. lia.
Qed.
