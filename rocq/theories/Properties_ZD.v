(** * C52: Li(n,z) for n = -1, 0, 1, 2 in IEEE double arithmetic

    The orders that Li(n,z) computes from a closed form, and the dilogarithm,
    over any C library that meets [libm_ok] (every elementary function within
    two units in the last place), for every recursion depth and every fuel of
    the model: the call returns, both components are finite, and with
    u = 2^-53 and w the returned value

      n = 0    |w - z/(1-z)|     <= u (10 |z/(1-z)|     + 2^-690)   |z| <= 10^12
      n = -1   |w - z/(1-z)^2|   <= u (15 |z/(1-z)^2|   + 2^-690)   |z| <= 10^6
      n = 1    |w - (-log(1-z))| <= u (7 + 5 |log(1-z)|)            |z| <= 10^28
      n = 2    the bound of C51.

    The bounds for n = 0 and n = -1 are relative: they hold however close z
    comes to the pole at 1 and to the zero at 0.  On the cut, n = 1 gives the
    value with imaginary part -pi. *)
From Coq Require Import ZArith Reals Bool Lia Lra Psatz List.
From Coquelicot Require Import Coquelicot.
From Interval Require Import Tactic.
From Flocq Require Import Core IEEE754.BinarySingleNaN.
From Verif Require Import Outcome Num NumR NumB NumB_facts Proof_Float Libm Fcalc Cplx Ccalc CLi Model_Zeta Model_LiC Model_Li Ieee Proof_Li2 Li2_ieee Li34_ieee Cieee CLi2_ieee CLi01_ieee CvsCpp Properties_J Properties_ZC.
Import ListNotations.
Local Open Scope R_scope.
Local Notation is_finite := BinarySingleNaN.is_finite.

(** the dispatch of Li(n,z), for any arithmetic *)
Section Disp.
Variable N : num.
Variables (d fuel : nat) (z : cpx N).
Hypothesis Hn : (isnan N (fst z) || isnan N (snd z))%bool = false.
Hypothesis Hi : (isinf N (fst z) || isinf N (snd z))%bool = false.
Lemma disp_0 n : (eqb N (fst z) (lit N 0 0) && eqb N (snd z) (lit N 0 0))%bool = true -> Li N d fuel n z = Val z.
Proof. intros H. destruct d; cbn [Li]; cbv zeta; rewrite Hn, Hi, H; reflexivity. Qed.
Hypothesis H0 : (eqb N (fst z) (lit N 0 0) && eqb N (snd z) (lit N 0 0))%bool = false.
Hypothesis H1 : (eqb N (fst z) (lit N 1 0) && eqb N (snd z) (lit N 0 0))%bool = false.
Lemma disp_m1 n : (eqb N (fst z) (lit N (-1) 0) && eqb N (snd z) (lit N 0 0))%bool = true -> Li N d fuel n z = bind (neg_eta N n) (fun v => Val (v, snd z)).
Proof. intros H. destruct d; cbn [Li]; cbv zeta; rewrite Hn, Hi, H0, H1, H; reflexivity. Qed.
Hypothesis Hm : (eqb N (fst z) (lit N (-1) 0) && eqb N (snd z) (lit N 0 0))%bool = false.
Lemma disp_ord0 : Li N d fuel 0 z = Val (cdiv N z (csub_rc N (lit N 1 0) z)).
Proof. destruct d; cbn [Li]; cbv zeta; rewrite Hn, Hi, H0, H1, Hm; reflexivity. Qed.
Lemma disp_ordm1 : Li N d fuel (-1) z = Val (cdiv N z (cmul N (csub_rc N (lit N 1 0) z) (csub_rc N (lit N 1 0) z))).
Proof. destruct d; cbn [Li]; cbv zeta; rewrite Hn, Hi, H0, H1, Hm; reflexivity. Qed.
Lemma disp_ord1 : Li N d fuel 1 z = Val (copp N (Li_clog N (csub_rc N (lit N 1 0) z))).
Proof. destruct d; cbn [Li]; cbv zeta; rewrite Hn, Hi, H0, H1, Hm; reflexivity. Qed.
Lemma disp_ord2 : Li N d fuel 2 z = Val (cLi2_d N z).
Proof. destruct d; cbn [Li]; cbv zeta; rewrite Hn, Hi, H0, H1, Hm; reflexivity. Qed.
End Disp.

Section T.
Variable L : libm 53 1024.
Hypothesis HL : libm_ok (Hp := Hp53) (He := He53) L.
Notation N := (B64 L).
Lemma fin_nan (z : cpx N) : cfinite z -> (isnan N (fst z) || isnan N (snd z))%bool = false /\ (isinf N (fst z) || isinf N (snd z))%bool = false.
Proof. intros [F1 F2]. destruct z as [[s1|s1| |s1 m1 e1 B1] [s2|s2| |s2 m2 e2 B2]]; cbn in *; try discriminate; split; reflexivity. Qed.
(** comparison with a small integer on the real axis *)
Lemma at_int (z : cpx N) (k : Z) : cfinite z -> (Z.abs k <= 1000)%Z ->
  (eqb N (fst z) (lit N k 0) && eqb N (snd z) (lit N 0 0))%bool = true /\ cval z = RtoC (IZR k) \/
  (eqb N (fst z) (lit N k 0) && eqb N (snd z) (lit N 0 0))%bool = false /\ cval z <> RtoC (IZR k).
Proof.
  destruct z as [x y]. intros [F1 F2] Hk. cbn [fst snd] in *. destruct (int_v L k Hk) as [Fk Vk]. destruct (int_v L 0 ltac:(lia)) as [Fz Vz].
  pose proof (eqb_R L x _ F1 Fk) as E1. pose proof (eqb_R L y _ F2 Fz) as E2. rewrite Vk in E1. rewrite Vz in E2. rewrite E1, E2. unfold cval, RtoC. cbn [fst snd].
  destruct (Req_bool_spec (B2R x) (IZR k)) as [E|E].
  - destruct (Req_bool_spec (B2R y) 0) as [G|G].
    + left. split; [reflexivity|]. f_equal; assumption.
    + right. split; [reflexivity|]. intros K. injection K. intros. contradiction.
  - right. split; [reflexivity|]. intros K. injection K. intros. contradiction.
Qed.
End T.

(** the value returned by a call that terminates normally *)
Definition returns {A} (c : out A) (P : A -> Prop) : Prop := exists w, c = Val w /\ P w.
(** z keeps a distance of 2^k from 1 whenever its real part is 1 *)
Definition off1 (k : Z) (z : binary_float 53 1024 * binary_float 53 1024) : Prop := B2R (fst z) <> 1 \/ bpow radix2 k <= Rabs (B2R (snd z)).

Section T2.
Variable L : libm 53 1024.
Hypothesis HL : libm_ok (Hp := Hp53) (He := He53) L.
Notation N := (B64 L).
(** the three constants that the call at z = -1 returns *)
Lemma mquarter_v : is_finite (lit N (-25) (-2)) = true /\ B2R (lit N (-25) (-2)) = - / 4.
Proof.
  assert (EE : B2SF (blit 53 1024 Hp53 He53 (-25) (-2)) = SpecFloat.S754_finite true 4503599627370496 (- 54)) by (vm_compute; reflexivity).
  change (lit N (-25) (-2)) with (blit 53 1024 Hp53 He53 (-25) (-2)). split; [rewrite <- is_finite_SF_B2SF, EE; reflexivity|]. rewrite <- SF2R_B2SF, EE. cbn [SF2R cond_Zopp]. unfold F2R. cbn [Fnum Fexp]. change (- Z.pos 4503599627370496)%Z with (-4503599627370496)%Z. rewrite Fcalc.bp2. change (Pos.to_nat 54) with 54%nat. lra.
Qed.
Lemma ln2_v : is_finite (lit N (-69314718055994531) (-17)) = true /\ Rabs (B2R (lit N (-69314718055994531) (-17)) - - ln 2) <= Fcalc.u 53.
Proof.
  assert (EE : B2SF (blit 53 1024 Hp53 He53 (-69314718055994531) (-17)) = SpecFloat.S754_finite true 6243314768165359 (- 53)) by (vm_compute; reflexivity).
  change (lit N (-69314718055994531) (-17)) with (blit 53 1024 Hp53 He53 (-69314718055994531) (-17)). split; [rewrite <- is_finite_SF_B2SF, EE; reflexivity|]. rewrite <- SF2R_B2SF, EE. cbn [SF2R cond_Zopp]. unfold F2R. cbn [Fnum Fexp]. change (- Z.pos 6243314768165359)%Z with (-6243314768165359)%Z. rewrite Fcalc.bp2, u_val. change (Pos.to_nat 53) with 53%nat. interval with (i_prec 80).
Qed.
Lemma b690 : 9 * bpow radix2 (-700) <= bpow radix2 (-690).
Proof. change (-690)%Z with (4 + -694)%Z. apply Rle_trans with (bpow radix2 (4 + -700)); [rewrite bpow_plus; pose proof (bpow_ge_0 radix2 (-700)); apply Rmult_le_compat_r; [assumption|cbn; lra]|apply bpow_le; lia]. Qed.
(** an exact answer is within any bound *)
Lemma exact0 (W : C) x : 0 <= x -> Cmod (Cminus W W) <= x.
Proof. intros H. replace (Cminus W W) with (RtoC 0) by ring. rewrite Cmod_0. exact H. Qed.
Lemma cval_mk (x : N) (z : cpx N) a b : B2R x = a -> cval z = RtoC b -> cval (x, snd z) = RtoC a.
Proof. intros H1 H2. apply (f_equal snd) in H2. unfold cval in *. cbn [fst snd RtoC] in H2. cbn [fst snd]. unfold RtoC. f_equal; [exact H1|exact H2]. Qed.
Lemma off1_ne k (z : cpx N) : off1 k z -> cval z <> RtoC 1.
Proof.
  intros H E. destruct z as [x y]. unfold cval, RtoC in E. cbn [fst snd] in E. injection E. intros Ey Ex. destruct H as [H|H]; cbn [fst snd] in H; [contradiction|]. rewrite Ey, Rabs_R0 in H. pose proof (bpow_gt_0 radix2 k). lra.
Qed.
Lemma CM_cval (w : cpx N) W e : CM L w W e -> cfinite w /\ Cmod (Cminus (cval w) W) <= e.
Proof. intros [F D]. split; [exact F|exact D]. Qed.

Theorem C52_Li_order_0 (d fuel : nat) (z : cpx N) : cfinite z -> Cmod (cval z) <= 10 ^ 12 -> off1 (-60) z ->
  returns (Li N d fuel 0 z) (fun w => cfinite w /\
    Cmod (Cminus (cval w) (Cdiv (cval z) (Cminus (RtoC 1) (cval z)))) <= / 2 ^ 53 * (10 * Cmod (Cdiv (cval z) (Cminus (RtoC 1) (cval z))) + bpow radix2 (-690))).
Proof.
  intros F HM H1. destruct (fin_nan L z F) as [Nn Ni]. pose proof (off1_ne _ _ H1) as Z1. rewrite <- u_val. pose proof (u_pos 53) as U. pose proof (bpow_ge_0 radix2 (-690)) as B0.
  assert (NB : forall V : C, 0 <= Fcalc.u 53 * (10 * Cmod V + bpow radix2 (-690))) by (intros V; pose proof (Cmod_ge_0 V); apply Rmult_le_pos; lra).
  destruct (at_int L z 0 F ltac:(lia)) as [[T0 V0]|[T0 V0]].
  { exists z. rewrite (disp_0 N d fuel z Nn Ni 0 T0). split; [reflexivity|]. split; [exact F|]. rewrite V0. replace (Cdiv (RtoC 0) (Cminus (RtoC 1) (RtoC 0))) with (RtoC 0) by (unfold Cdiv; ring). apply exact0, NB. }
  destruct (at_int L z 1 F ltac:(lia)) as [[T1 V1]|[T1 V1]]; [contradiction|].
  destruct (at_int L z (-1) F ltac:(lia)) as [[T2 V2]|[T2 V2]].
  { exists (lit N (-5) (-1), snd z). rewrite (disp_m1 N d fuel z Nn Ni T0 T1 0 T2). split; [reflexivity|]. destruct (mhalf_v L) as [FH VH]. split; [split; [exact FH|exact (proj2 F)]|].
    assert (VV : cval (lit N (-5) (-1), snd z) = Cdiv (RtoC (-1)) (Cminus (RtoC 1) (RtoC (-1)))).
    { rewrite (cval_mk _ z _ _ VH V2). unfold Cdiv, Cinv, Cminus, Cplus, Copp, Cmult, RtoC. cbn [fst snd pow]. f_equal; field. }
    rewrite V2, VV. apply exact0, NB. }
  exists (cdiv N z (csub_rc N (lit N 1 0) z)). rewrite (disp_ord0 N d fuel z Nn Ni T0 T1 T2). split; [reflexivity|]. apply CM_cval.
  eapply CM_weak; [exact (ord0_ok L z F HM H1)|]. pose proof b690 as B6. pose proof (Rmult_le_compat_l _ _ _ (Rlt_le _ _ U) B6) as B7. change (CLi2_slack.Qd) with (CLi2_slack.Qd). change (Cieee.val L z) with (cval z). lra.
Qed.

Theorem C52_Li_order_m1 (d fuel : nat) (z : cpx N) : cfinite z -> Cmod (cval z) <= 10 ^ 6 -> off1 (-60) z ->
  let V := Cdiv (cval z) (Cmult (Cminus (RtoC 1) (cval z)) (Cminus (RtoC 1) (cval z))) in
  returns (Li N d fuel (-1) z) (fun w => cfinite w /\ Cmod (Cminus (cval w) V) <= / 2 ^ 53 * (15 * Cmod V + bpow radix2 (-690))).
Proof.
  intros F HM H1 V. destruct (fin_nan L z F) as [Nn Ni]. pose proof (off1_ne _ _ H1) as Z1. rewrite <- u_val. pose proof (u_pos 53) as U. pose proof (bpow_ge_0 radix2 (-690)) as B0.
  assert (NB : 0 <= Fcalc.u 53 * (15 * Cmod V + bpow radix2 (-690))) by (pose proof (Cmod_ge_0 V); apply Rmult_le_pos; lra).
  destruct (at_int L z 0 F ltac:(lia)) as [[T0 V0]|[T0 V0]].
  { exists z. rewrite (disp_0 N d fuel z Nn Ni (-1) T0). split; [reflexivity|]. split; [exact F|]. replace (cval z) with V by (unfold V; rewrite V0; unfold Cdiv; ring). apply exact0, NB. }
  destruct (at_int L z 1 F ltac:(lia)) as [[T1 V1]|[T1 V1]]; [contradiction|].
  destruct (at_int L z (-1) F ltac:(lia)) as [[T2 V2]|[T2 V2]].
  { exists (lit N (-25) (-2), snd z). rewrite (disp_m1 N d fuel z Nn Ni T0 T1 (-1) T2). split; [reflexivity|]. destruct mquarter_v as [FH VH]. split; [split; [exact FH|exact (proj2 F)]|].
    assert (VV : cval (lit N (-25) (-2), snd z) = V).
    { rewrite (cval_mk _ z _ _ VH V2). unfold V. rewrite V2. unfold Cdiv, Cinv, Cminus, Cplus, Copp, Cmult, RtoC. cbn [fst snd pow]. f_equal; field. }
    rewrite VV. apply exact0, NB. }
  set (d1 := csub_rc N (lit N 1 0) z). exists (cdiv N z (cmul N d1 d1)). unfold d1. rewrite (disp_ordm1 N d fuel z Nn Ni T0 T1 T2). split; [reflexivity|]. apply CM_cval.
  eapply CM_weak; [exact (ordm1_ok L z F HM H1)|]. pose proof b690 as B6. pose proof (Rmult_le_compat_l _ _ _ (Rlt_le _ _ U) B6) as B7. change (Cieee.val L z) with (cval z). fold V. lra.
Qed.

Theorem C52_Li_order_1 (d fuel : nat) (z : cpx N) : cfinite z -> B2R (fst z) < 1 \/ B2R (snd z) <> 0 -> Cmod (cval z) <= 10 ^ 28 -> off1 (-1000) z ->
  let V := Copp (Clog (Cminus (RtoC 1) (cval z))) in
  returns (Li N d fuel 1 z) (fun w => cfinite w /\ Cmod (Cminus (cval w) V) <= / 2 ^ 53 * (7 + 5 * Cmod V)).
Proof.
  intros F HS HM H1 V. destruct (fin_nan L z F) as [Nn Ni]. pose proof (off1_ne _ _ H1) as Z1. rewrite <- u_val. pose proof (u_pos 53) as U.
  assert (NB : 7 * Fcalc.u 53 <= Fcalc.u 53 * (7 + 5 * Cmod V)) by (pose proof (Rmult_le_pos _ _ (Rlt_le _ _ U) (Cmod_ge_0 V)); lra).
  destruct (at_int L z 0 F ltac:(lia)) as [[T0 V0]|[T0 V0]].
  { exists z. rewrite (disp_0 N d fuel z Nn Ni 1 T0). split; [reflexivity|]. split; [exact F|].
    assert (E : cval z = V). { unfold V. rewrite V0. replace (Cminus (RtoC 1) (RtoC 0)) with (RtoC 1) by ring. rewrite Clog_pos, ln_1 by lra. ring. }
    rewrite E. apply exact0. lra. }
  destruct (at_int L z 1 F ltac:(lia)) as [[T1 V1]|[T1 V1]]; [contradiction|].
  destruct (at_int L z (-1) F ltac:(lia)) as [[T2 V2]|[T2 V2]].
  { exists (lit N (-69314718055994531) (-17), snd z). rewrite (disp_m1 N d fuel z Nn Ni T0 T1 1 T2). split; [reflexivity|]. destruct ln2_v as [FH VH]. split; [split; [exact FH|exact (proj2 F)]|].
    assert (VE : V = RtoC (- ln 2)). { unfold V. rewrite V2. replace (Cminus (RtoC 1) (RtoC (-1))) with (RtoC 2) by (unfold Cminus, Cplus, Copp, RtoC; cbn [fst snd]; f_equal; ring). rewrite Clog_pos by lra. unfold Copp, RtoC. cbn [fst snd]. f_equal. ring. }
    eapply Rle_trans; [|exact NB]. rewrite (cval_mk _ z _ _ eq_refl V2), VE. eapply Rle_trans; [apply Cmod_re|].
    - unfold Cminus, Cplus, Copp, RtoC. cbn [fst snd]. exact VH.
    - unfold Cminus, Cplus, Copp, RtoC. cbn [fst snd]. ring.
    - lra. }
  exists (copp N (Li_clog N (csub_rc N (lit N 1 0) z))). rewrite (disp_ord1 N d fuel z Nn Ni T0 T1 T2). split; [reflexivity|]. apply CM_cval.
  eapply CM_weak; [exact (log1_ok L HL z F HS HM H1)|]. change (CLi 1 (Cieee.val L z)) with V. lra.
Qed.

(** on the cut the imaginary part is the 17-digit pi of the source, negated *)
Theorem C52_Li_order_1_cut (d fuel : nat) (z : cpx N) : cfinite z -> 1 < B2R (fst z) <= 10 ^ 28 -> B2R (snd z) = 0 ->
  returns (Li N d fuel 1 z) (fun w => cfinite w /\
    Rabs (B2R (fst w) - - ln (B2R (fst z) - 1)) <= / 2 ^ 53 * (3 + 5 * Rabs (ln (B2R (fst z) - 1))) /\ Rabs (B2R (snd w) - - PI) <= 125 / 10 ^ 18).
Proof.
  intros F [Ha Hb] Hy. destruct (fin_nan L z F) as [Nn Ni]. rewrite <- u_val. pose proof u_b as U.
  assert (Hx : cval z = RtoC (B2R (fst z))) by (unfold cval, RtoC; f_equal; exact Hy).
  destruct (at_int L z 0 F ltac:(lia)) as [[T0 V0]|[T0 V0]]; [rewrite Hx in V0; apply RtoC_inj in V0; lra|].
  destruct (at_int L z 1 F ltac:(lia)) as [[T1 V1]|[T1 V1]]; [rewrite Hx in V1; apply RtoC_inj in V1; lra|].
  destruct (at_int L z (-1) F ltac:(lia)) as [[T2 V2]|[T2 V2]]; [rewrite Hx in V2; apply RtoC_inj in V2; lra|].
  exists (copp N (Li_clog N (csub_rc N (lit N 1 0) z))). rewrite (disp_ord1 N d fuel z Nn Ni T0 T1 T2). split; [reflexivity|].
  destruct (sub1_ok L z F) as (Fd & S2 & S1 & KU). { change (Cmod (cval z) <= 10 ^ 28). rewrite Hx, Cmod_R, Rabs_pos_eq by lra. exact Hb. }
  set (d1 := csub_rc N (lit N 1 0) z) in *. destruct Fd as [Fd1 Fd2]. set (a := B2R (fst z)) in *.
  assert (S1' : Rabs (B2R (fst d1) - (1 - a)) <= 101 / 100 * (Fcalc.u 53 * Rabs (1 - a))) by exact S1. assert (KU' : a <> 1 -> Fcalc.u 53 <= Rabs (1 - a)) by exact KU. assert (S2' : B2R (snd d1) = 0) by (eapply eq_trans; [exact S2|]; eapply eq_trans; [apply (f_equal Ropp); exact Hy|apply Ropp_0]).
  clear S1 S2 KU. rename S1' into S1. rename S2' into S2. rename KU' into KU. specialize (KU ltac:(lra)). rewrite (Rabs_left (1 - a)) in S1 by lra. rewrite (Rabs_left (1 - a)) in KU by lra. assert (U1 : Fcalc.u 53 * (- (1 - a)) <= / 10 ^ 15 * (- (1 - a))) by (apply Rmult_le_compat_r; lra).
  destruct (int_v L 0 ltac:(lia)) as [Fz Vz].
  assert (Nd : B2R (fst d1) < 0) by (apply Rabs_le_between in S1; lra).
  assert (B1 : eqb N (snd d1) (lit N 0 0) = true) by (rewrite (eqb_R L (snd d1) _ Fd2 Fz), S2, Vz; apply Req_bool_true; reflexivity).
  assert (B2 : ltb N (lit N 0 0) (fst d1) = false) by (rewrite (CLi2_ieee.ltb_R L _ (fst d1) Fz Fd1), Vz; apply Rlt_bool_false; lra).
  unfold Li_clog. rewrite B1, B2. cbn [andb]. unfold copp. cbn [fst snd].
  destruct (opp_r 53 1024 Hp53 He53 L _ Fd1) as [G1 E1]. change (NumB.NumB 53 1024 Hp53 He53 L) with N in *.
  destruct (ln_rel (B2R (opp N (fst d1))) (a - 1) (101 / 100 * Fcalc.u 53)) as [HP HD]; [lra|lra| |].
  { assert (E1' : B2R (opp N (fst d1)) = - B2R (fst d1)) by exact E1. rewrite E1'. replace (- B2R (fst d1) - (a - 1)) with (- (B2R (fst d1) - (1 - a))) by ring. rewrite Rabs_Ropp. replace (- (1 - a)) with (a - 1) in S1 by ring. lra. }
  pose proof (A_close _ _ _ _ (log_acc _ _ _ _ _ HL (opp N (fst d1)) G1 HP)) as AL. change (m_log _ _ L (opp N (fst d1))) with (nlog N (opp N (fst d1))) in AL.
  destruct AL as [FL DL]. destruct (opp_r 53 1024 Hp53 He53 L _ FL) as [FO EO].
  assert (PV : is_finite (Li_PI N) = true /\ Rabs (B2R (Li_PI N) - PI) <= 125 / 10 ^ 18).
  { assert (EE : B2SF (blit 53 1024 Hp53 He53 31415926535897932 (-16)) = SpecFloat.S754_finite false 7074237752028440 (- 51)) by (vm_compute; reflexivity).
    change (Li_PI N) with (blit 53 1024 Hp53 He53 31415926535897932 (-16)). split; [rewrite <- is_finite_SF_B2SF, EE; reflexivity|]. rewrite <- SF2R_B2SF, EE. cbn [SF2R cond_Zopp]. unfold F2R. cbn [Fnum Fexp]. rewrite Fcalc.bp2. change (Pos.to_nat 51) with 51%nat. interval with (i_prec 80). }
  destruct PV as [PF PD]. destruct (opp_r 53 1024 Hp53 He53 L _ PF) as [PF2 PE2].
  split; [split; [exact FO|exact PF2]|]. split.
  - assert (EO' : B2R (opp N (nlog N (opp N (fst d1)))) = - B2R (nlog N (opp N (fst d1)))) by exact EO. rewrite EO'. set (lh := ln (B2R (opp N (fst d1)))) in *. set (l := ln (a - 1)) in *. set (x := B2R (nlog N (opp N (fst d1)))) in *. clearbody x lh l.
    replace (- x - - l) with (- ((x - lh) + (lh - l))) by ring. rewrite Rabs_Ropp. eapply Rle_trans; [apply Rabs_triang|].
    assert (Rabs lh <= Rabs l + 4 / 3 * (101 / 100 * Fcalc.u 53)) by (replace lh with (l + (lh - l)) by ring; eapply Rle_trans; [apply Rabs_triang|]; lra).
    assert (4 * Fcalc.u 53 * Rabs lh <= 4 * Fcalc.u 53 * (Rabs l + 4 / 3 * (101 / 100 * Fcalc.u 53))) by (apply Rmult_le_compat_l; lra). pose proof (Rmult_le_pos _ _ (Rlt_le _ _ (u_pos 53)) (Rabs_pos l)). pose proof eta_1.
    assert (Fcalc.u 53 * Fcalc.u 53 <= Fcalc.u 53 * / 10 ^ 15) by (apply Rmult_le_compat_l; lra). lra.
  - assert (PE' : B2R (opp N (Li_PI N)) = - B2R (Li_PI N)) by exact PE2. rewrite PE'. replace (- B2R (Li_PI N) - - PI) with (- (B2R (Li_PI N) - PI)) by ring. rewrite Rabs_Ropp. exact PD.
Qed.

(** order 2 is the complex dilogarithm of C51 *)
Theorem C52_Li_order_2 (d fuel : nat) (z : cpx N) : cfinite z -> B2R (snd z) <> 0 -> Cmod (cval z) <= 10 ^ 12 -> off1 (-1000) z ->
  returns (Li N d fuel 2 z) (fun w => cfinite w /\ li2_close (cval z) (cval w)).
Proof.
  intros F Hy HM H1. destruct (fin_nan L z F) as [Nn Ni].
  assert (NI : forall k, cval z <> RtoC (IZR k)) by (intros k E; apply (f_equal snd) in E; apply Hy; exact E).
  destruct (at_int L z 0 F ltac:(lia)) as [[T0 V0]|[T0 V0]]; [destruct (NI _ V0)|]. destruct (at_int L z 1 F ltac:(lia)) as [[T1 V1]|[T1 V1]]; [destruct (NI _ V1)|]. destruct (at_int L z (-1) F ltac:(lia)) as [[T2 V2]|[T2 V2]]; [destruct (NI _ V2)|].
  exists (cLi2_d N z). rewrite (disp_ord2 N d fuel z Nn Ni T0 T1 T2). split; [reflexivity|]. exact (C51_Li2_complex_double L z HL F Hy HM H1).
Qed.
End T2.

(** the hypotheses are met: a library that rounds correctly, and i/2 + k for small k *)
Example C52_example : libm_ok (Hp := Hp53) (He := He53) (libm_cr 53 1024 Hp53 He53) /\
  forall a, (-3 <= a <= 3)%Z -> exists z : binary_float 53 1024 * binary_float 53 1024,
    cfinite z /\ B2R (fst z) = IZR a /\ B2R (snd z) = / 2 /\ Cmod (cval z) <= 10 ^ 6 /\ off1 (-60) z /\ off1 (-1000) z.
Proof.
  split; [exact libm_ok_64|]. intros a Ha. destruct (litZ_exact 53 1024 Hp53 He53 ltac:(lia) a ltac:(lia)) as [V F]. destruct (CvsCpp.half_ok 53 1024 Hp53 He53 ltac:(lia)) as [V2 F2].
  exists (blit 53 1024 Hp53 He53 a 0, blit 53 1024 Hp53 He53 5 (-1)). unfold cfinite, cval, off1. cbn [fst snd]. rewrite V, V2. split; [split; assumption|]. split; [reflexivity|]. split; [reflexivity|].
  rewrite (Rabs_pos_eq (/ 2)) by lra. split; [|split; right; change (/ 2) with (bpow radix2 (-1)); apply bpow_le; lia].
  eapply Rle_trans; [apply Cmod_le_sum|]. cbn [fst snd]. rewrite (Rabs_pos_eq (/ 2)) by lra. assert (Rabs (IZR a) <= 3) by (rewrite <- abs_IZR; apply IZR_le; lia). lra.
Qed.
