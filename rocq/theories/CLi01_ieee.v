(** * Li(n,z) for n = -1, 0, 1 in IEEE double arithmetic: the steps *)
From Coq Require Import ZArith Reals Bool Lia Lra Psatz List.
From Coquelicot Require Import Coquelicot.
From Interval Require Import Tactic.
From Flocq Require Import Core Relative IEEE754.BinarySingleNaN.
From Verif Require Import Outcome Num NumR NumB NumB_facts Proof_Float Libm Fcalc Cplx Ccalc CLi CLi_T CLi_region CLi2_slack Model_Li Ieee Li2_ieee Li34_ieee Cieee CLi2_ieee.
Import ListNotations.
Local Open Scope R_scope.

(** the logarithm under a relative perturbation that keeps off the cut *)
Lemma Clog_rel (a b : C) k e : 0 < k -> (forall t, 0 <= t <= 1 -> offneg (Cplus a (Cmult (RtoC t) (Cminus b a))) /\ k <= Cmod (Cplus a (Cmult (RtoC t) (Cminus b a)))) ->
  Cmod (Cminus b a) <= e -> Cmod (Cminus (Clog b) (Clog a)) <= e / k.
Proof.
  intros Hk Hf He. set (f := fun t : R => Cplus a (Cmult (RtoC t) (Cminus b a))).
  assert (D : forall t, 0 <= t <= 1 -> cder (fun s => Clog (f s)) t (Cdiv (Cminus b a) (f t))) by (intros t Ht; apply cder_Clog; [apply Hf; exact Ht|apply cder_lin]).
  pose proof (cmv_M (fun s => Clog (f s)) (fun s => Cdiv (Cminus b a) (f s)) (e / k) 0 1 ltac:(lra)) as M. cbv beta in M.
  replace (f 1) with b in M by (unfold f; ring). replace (f 0) with a in M by (unfold f; ring). replace (e / k) with (e / k * (1 - 0)) by ring. apply M.
  - intros t Ht. apply D. lra.
  - intros t Ht. eapply cder_cont, D. lra.
  - intros t Ht. destruct (Hf t ltac:(lra)) as [O K]. fold (f t) in O, K. rewrite Cmod_div by (apply offneg_neq, O). unfold Rdiv. apply Rmult_le_compat; [apply Cmod_ge_0|left; apply Rinv_0_lt_compat; lra|exact He|].
    apply Rinv_le_contravar; [exact Hk|exact K].
Qed.

Lemma seg_fst (a b : C) t : fst (Cplus a (Cmult (RtoC t) (Cminus b a))) = fst a + t * (fst b - fst a).
Proof. destruct a, b. unfold Cplus, Cmult, Cminus, Cplus, Copp, RtoC. cbn [fst snd]. ring. Qed.
Lemma seg_snd (a b : C) t : snd (Cplus a (Cmult (RtoC t) (Cminus b a))) = snd a + t * (snd b - snd a).
Proof. destruct a, b. unfold Cplus, Cmult, Cminus, Cplus, Copp, RtoC. cbn [fst snd]. ring. Qed.
Section C.
Variable L : libm 53 1024.
Hypothesis HL : libm_ok (Hp := Hp53) (He := He53) L.
Notation N := (B64 L).
Local Notation NN := (NumB 53 1024 Hp53 He53 L).
Notation val := (val L).
Notation CM := (CM L).
Notation finc := (finc L).

Lemma big_le2 M : M <= 10 ^ 70 -> M <= BIG 1024.
Proof.
  intros H. apply Rle_trans with (bpow radix2 300); [|apply bpow_le; lia]. eapply Rle_trans; [exact H|]. rewrite bpow_exp. change (IZR radix2) with 2. interval.
Qed.
(** quotient of two complex numbers; [k] measures how far underflow is *)
Lemma cdiv_gen w d k : finc w -> finc d -> 0 < k <= / 1000 -> eta <= u * k -> eta <= u * k * (Cmod (val d) * Cmod (val d)) -> 0 < Cmod (val d) <= 10 ^ 14 -> Cmod (val w) * Cmod (val d) <= 10 ^ 28 -> Cmod (val w) <= 10 ^ 60 * Cmod (val d) ->
  CM (cdiv N w d) (Cdiv (val w) (val d)) (8 * u * Cmod (Cdiv (val w) (val d)) + 9 * u * k).
Proof.
  intros [F1 F2] [G1 G2] Hk Hk1 Hkq [H1 H2] HM HQ. pose proof u_b as U. pose proof eta_1 as ET. set (m := Cmod (val d)) in *.
  pose proof (Cmod_ge_0 (val w)) as W0. set (q := m * m) in *. assert (q0 : 0 < q) by (apply Rmult_lt_0_compat; exact H1).
  assert (q1 : q <= 10 ^ 28) by (unfold q; replace (10 ^ 28) with (10 ^ 14 * 10 ^ 14) by lra; apply Rmult_le_compat; lra).
  set (M := Cmod (val w) * m) in *. assert (M0 : 0 <= M) by (apply Rmult_le_pos; lra).
  assert (ukq : u * k * q <= u * q / 1000) by (replace (u * k * q) with (u * q * k) by ring; unfold Rdiv; apply Rmult_le_compat_l; [apply Rmult_le_pos; lra|lra]).
  assert (uq1 : u * q <= q / 1000000) by (unfold Rdiv; rewrite (Rmult_comm u); apply Rmult_le_compat_l; lra).
  pose proof (cnorm_ok L d (conj G1 G2) ltac:(fold m; lra)) as AN. fold m in AN. fold q in AN.
  destruct (comp_prod (val w) (val d)) as [K1 K2]. fold m in K1, K2. cbn [Cieee.val fst snd] in K1, K2.
  assert (P1 := proj1 (aprod2 L (fst w) (fst d) (snd w) (snd d) M F1 G1 F2 G2 ltac:(unfold M; lra) ltac:(lra))).
  assert (P2 := proj2 (aprod2 L (snd w) (fst d) (fst w) (snd d) M F2 G1 F1 G2 ltac:(unfold M; lra) ltac:(lra))).
  assert (DN : val d <> RtoC 0) by (intros E; unfold m in H1; rewrite E, Cmod_0 in H1; lra).
  assert (QE : Cmod (Cdiv (val w) (val d)) = M / q) by (rewrite Cmod_div by exact DN; fold m; unfold M, q; field; lra).
  rewrite QE. set (Q := M / q) in *. assert (MQ : M = Q * q) by (unfold Q; field; lra). assert (Q0 : 0 <= Q) by (unfold Q, Rdiv; apply Rmult_le_pos; [exact M0|left; apply Rinv_0_lt_compat; exact q0]).
  assert (Q1 : Q <= 10 ^ 60). { apply Rmult_le_reg_r with q; [exact q0|]. rewrite <- MQ. unfold M, q. rewrite <- Rmult_assoc. apply Rmult_le_compat_r; lra. }
  assert (kq0 : 0 <= u * k) by (apply Rmult_le_pos; lra). assert (uk1 : u * k <= / 10 ^ 18) by (replace (/ 10 ^ 18) with (/ 10 ^ 15 * / 1000) by lra; apply Rmult_le_compat; lra).
  assert (ukQ : u * k * Q <= u * Q / 1000) by (replace (u * k * Q) with (u * Q * k) by ring; unfold Rdiv; apply Rmult_le_compat_l; [apply Rmult_le_pos; lra|lra]).
  assert (uQ0 : 0 <= u * Q <= Q / 1000000) by (split; [apply Rmult_le_pos; lra|unfold Rdiv; rewrite (Rmult_comm u); apply Rmult_le_compat_l; lra]).
  assert (G : forall f a, A f a (201 / 100 * (u * M) + 4 * eta) -> Rabs a <= M -> A (div N f (cnorm N d)) (a / q) (52 / 10 * (u * Q) + 6 * (u * k))).
  { intros f a Af Ha.
    assert (E1 : (201 / 100 * (u * M) + 4 * eta) / (999 / 1000 * q) + M * (201 / 100 * (u * q) + 4 * eta) / ((999 / 1000 * q) * (999 / 1000 * q)) <= 404 / 100 * (u * Q) + 41 / 10 * (u * k)).
    { apply Rle_trans with ((201 / 100 * (u * (Q * q)) + 4 * (u * k * q)) / (999 / 1000 * q) + (Q * q) * (201 / 100 * (u * q) + 4 * (u * k * q)) / ((999 / 1000 * q) * (999 / 1000 * q))).
      - rewrite <- MQ. apply Rplus_le_compat; (apply Rmult_le_compat_r; [left; apply Rinv_0_lt_compat; nra|]); [lra|apply Rmult_le_compat_l; lra].
      - replace ((201 / 100 * (u * (Q * q)) + 4 * (u * k * q)) / (999 / 1000 * q) + (Q * q) * (201 / 100 * (u * q) + 4 * (u * k * q)) / ((999 / 1000 * q) * (999 / 1000 * q)))
          with (2010 / 999 * (u * Q) + 4000 / 999 * (u * k) + (2010 / 999 * (1000 / 999) * (u * Q) + 4000 / 999 * (1000 / 999) * (u * k * Q))) by (field; lra). lra. }
    refine (A_weak _ _ _ _ _ _ (A_div 53 1024 Hp53 He53 ltac:(lia) ltac:(lia) ltac:(lia) L f (cnorm N d) a q _ _ M (999 / 1000 * q) (404 / 100 * (u * Q) + 41 / 10 * (u * k)) (102 / 100 * Q + 5 * (u * k)) Af AN Ha ltac:(lra) _ E1 _ _) _).
    - clear E1. rewrite (Rabs_pos_eq q) by lra. lra.
    - clear E1. rewrite MQ at 1. replace (Q * q / (999 / 1000 * q)) with (1000 / 999 * Q) by (field; lra). lra.
    - clear E1. apply big_le2. lra.
    - clear E1. replace (u * (102 / 100 * Q + 5 * (u * k))) with (102 / 100 * (u * Q) + 5 * (u * (u * k))) by ring. assert (u * (u * k) <= / 10 ^ 15 * (u * k)) by (apply Rmult_le_compat_r; lra). lra. }
  assert (EQ : Cdiv (val w) (val d) = ((B2R (fst w) * B2R (fst d) + B2R (snd w) * B2R (snd d)) / q, (B2R (snd w) * B2R (fst d) - B2R (fst w) * B2R (snd d)) / q)).
  { assert (Qe : q = B2R (fst d) * B2R (fst d) + B2R (snd d) * B2R (snd d)) by (unfold q, m; apply (Cmod_sq (val d))). assert (Qn : q <> 0) by lra. clearbody q. subst q. unfold Cdiv, Cinv, Cmult, Cieee.val. cbn [fst snd]. f_equal; field; intros E; apply Qn; rewrite <- E; ring. }
  eapply CM_weak; [apply (CM_comp L _ _ (52 / 10 * (u * Q) + 6 * (u * k)))|lra]; rewrite EQ; unfold cdiv; cbn [fst snd]; apply G; try assumption.
  - eapply Rle_trans; [apply Rabs_triang|]. unfold M. lra.
  - unfold Rminus. eapply Rle_trans; [apply Rabs_triang|]. rewrite Rabs_Ropp. unfold M. lra.
Qed.

(** 1-z: the real part is rounded, the imaginary part is exact *)
Lemma sub1_ok z : finc z -> Cmod (val z) <= 10 ^ 28 ->
  finc (csub_rc N (lit N 1 0) z) /\ B2R (snd (csub_rc N (lit N 1 0) z)) = - B2R (snd z) /\
  Rabs (B2R (fst (csub_rc N (lit N 1 0) z)) - (1 - B2R (fst z))) <= 101 / 100 * (u * Rabs (1 - B2R (fst z))) /\ (B2R (fst z) <> 1 -> u <= Rabs (1 - B2R (fst z))).
Proof.
  intros [F1 F2] HM. pose proof u_b as U. pose proof eta_1 as ET. destruct (int_v L 1 ltac:(lia)) as [Fo Vo]. pose proof (Cmod_fst (val z)) as K. change (fst (val z)) with (B2R (fst z)) in K. set (a := B2R (fst z)) in *.
  assert (AB : Rabs (1 - a) <= 1 + Rabs a) by (unfold Rminus; eapply Rle_trans; [apply Rabs_triang|]; rewrite Rabs_Ropp, Rabs_R1; lra).
  destruct (sub_r 53 1024 Hp53 He53 ltac:(lia) ltac:(lia) ltac:(lia) L (lit N 1 0) (fst z) Fo F1) as [P Q]. { apply big_le. rewrite Vo. fold a. lra. }
  destruct (opp_r 53 1024 Hp53 He53 L _ F2) as [G2 E2].
  assert (KU : a <> 1 -> u <= Rabs (1 - a)). { intros Ha. destruct (Rlt_le_dec a 1) as [T|T]; [pose proof (below_1 L (fst z) T) as S1; fold a in S1; rewrite Rabs_pos_eq; lra|]. assert (T' : 1 < a) by lra. pose proof (above_1 L (fst z) T') as S1. fold a in S1. rewrite Rabs_left; lra. }
  split; [split; [exact P|exact G2]|]. split; [exact E2|]. split; [|exact KU]. change (fst (csub_rc N (lit N 1 0) z)) with (sub NN (lit N 1 0) (fst z)). rewrite Q, Vo. fold a.
  destruct (Req_dec a 1) as [E|E].
  - rewrite E. replace (1 - 1) with 0 by ring. rewrite round_0 by apply valid_rnd_N. replace (0 - 0) with 0 by ring. rewrite Rabs_R0. lra.
  - specialize (KU E). pose proof (rnd_err 53 1024 Hp53 (1 - a)) as R. fold u in R. eapply Rle_trans; [exact R|].
    assert (T : eta <= u * u / 100). { pose proof u_val as UV. assert (u * (u / 100) >= u * / 10 ^ 60) by (apply Rmult_ge_compat_l; lra). lra. }
    assert (u * u <= u * Rabs (1 - a)) by (apply Rmult_le_compat_l; lra). change (bpow radix2 (3 - 1024 - 53 - 1)) with eta. lra.
Qed.
Lemma sub1_C z : finc z -> Cmod (val z) <= 10 ^ 28 -> let D := Cminus (RtoC 1) (val z) in let d := csub_rc N (lit N 1 0) z in
  finc d /\ Cmod (Cminus (val d) D) <= 101 / 100 * (u * Cmod D) /\ snd (val d) = snd D /\ Rabs (fst (val d) - fst D) <= 101 / 100 * (u * Rabs (fst D)).
Proof.
  intros F HM D d. destruct (sub1_ok z F HM) as (Fd & S2 & S1 & _). fold d in Fd, S1, S2. pose proof u_b as U. split; [exact Fd|].
  assert (D1 : fst D = 1 - B2R (fst z)) by (unfold D, Cminus, Cplus, Copp, RtoC, Cieee.val; cbn [fst snd]; ring). assert (D2 : snd D = - B2R (snd z)) by (unfold D, Cminus, Cplus, Copp, RtoC, Cieee.val; cbn [fst snd]; ring).
  assert (E2 : snd (val d) = snd D) by (rewrite D2; exact S2). assert (E1 : Rabs (fst (val d) - fst D) <= 101 / 100 * (u * Rabs (fst D))) by (rewrite D1; exact S1). split; [|split; assumption].
  apply Rle_trans with (101 / 100 * (u * Rabs (fst D))); [|apply Rmult_le_compat_l; [lra|apply Rmult_le_compat_l; [lra|apply Cmod_fst]]].
  apply Cmod_re; [exact E1|]. change (snd (Cminus (val d) D)) with (snd (val d) - snd D). lra.
Qed.

(** -log(1-z) *)
Lemma log1_ok z : finc z -> slit (val z) -> Cmod (val z) <= 10 ^ 28 -> (B2R (fst z) <> 1 \/ bpow radix2 (-1000) <= Rabs (B2R (snd z))) ->
  CM (copp N (Li_clog N (csub_rc N (lit N 1 0) z))) (CLi 1 (val z)) (7 * u + 5 * u * Cmod (CLi 1 (val z))).
Proof.
  intros F HS HM H1. pose proof u_b as U. pose proof eta_1 as ET. destruct (sub1_C z F HM) as (Fd & DD & D2 & D1). destruct (sub1_ok z F HM) as (_ & _ & _ & KU).
  pose proof (slit_1m _ HS) as OD. cbn [CLi]. rewrite Cmod_opp. apply CM_opp. set (D := Cminus (RtoC 1) (val z)) in *. set (d := csub_rc N (lit N 1 0) z) in *.
  assert (DN : D <> RtoC 0) by (apply offneg_neq; exact OD). assert (D0 : 0 < Cmod D) by (apply Cmod_gt_0; exact DN).
  assert (Df : fst D = 1 - B2R (fst z)) by (unfold D, Cminus, Cplus, Copp, RtoC, Cieee.val; cbn [fst snd]; ring). assert (Ds : snd D = - B2R (snd z)) by (unfold D, Cminus, Cplus, Copp, RtoC, Cieee.val; cbn [fst snd]; ring).
  assert (uD : u * Cmod D <= Cmod D / 10 ^ 15) by (unfold Rdiv; rewrite (Rmult_comm u); apply Rmult_le_compat_l; lra).
  assert (LG : Cmod (Cminus (Clog (val d)) (Clog D)) <= 101 / 100 * (u * Cmod D) / (99 / 100 * Cmod D)).
  { apply Clog_rel; [lra| |exact DD]. intros t Ht. split.
    - destruct OD as [O|O]; [|right; rewrite seg_snd, D2; replace (snd D + t * (snd D - snd D)) with (snd D) by ring; exact O]. left. rewrite seg_fst. rewrite (Rabs_pos_eq (fst D)) in D1 by lra. assert (u * fst D <= / 10 ^ 15 * fst D) by (apply Rmult_le_compat_r; lra). apply Rabs_le_between in D1.
      set (x := fst (val d)) in *. set (y := fst D) in *. assert (- (y / 2) <= t * (x - y)); [|lra]. destruct (Rle_dec 0 (x - y)) as [G|G]; [assert (0 <= t * (x - y)) by (apply Rmult_le_pos; lra); lra|]. assert (1 * (x - y) <= t * (x - y)) by (clear - G Ht; nra). lra.
    - pose proof (Cmod_tri_lo D (Cplus D (Cmult (RtoC t) (Cminus (val d) D)))) as T. replace (Cminus D (Cplus D (Cmult (RtoC t) (Cminus (val d) D)))) with (Copp (Cmult (RtoC t) (Cminus (val d) D))) in T by ring. rewrite Cmod_opp, Cmod_mult, Cmod_R, Rabs_pos_eq in T by lra.
      assert (t * Cmod (Cminus (val d) D) <= 1 * Cmod (Cminus (val d) D)) by (apply Rmult_le_compat_r; [apply Cmod_ge_0|lra]). lra. }
  replace (101 / 100 * (u * Cmod D) / (99 / 100 * Cmod D)) with (101 / 99 * u) in LG by (field; lra).
  assert (LM : Cmod (Clog (val d)) <= Cmod (Clog D) + 101 / 99 * u) by (replace (Clog (val d)) with (Cplus (Clog D) (Cminus (Clog (val d)) (Clog D))) by ring; eapply Rle_trans; [apply Cmod_triangle|]; lra).
  assert (uu : u * u <= u / 1000) by (unfold Rdiv; apply Rmult_le_compat_l; lra).
  assert (FIN : CM (Li_clog N d) (Clog (val d)) (58 / 10 * u + 4 * u * Cmod (Clog (val d)))).
  { pose proof (Cmod_ge_0 (Clog (val d))) as LP. destruct (int_v L 0 ltac:(lia)) as [Fz Vz]. destruct Fd as [Fd1 Fd2].
    assert (LOW : bpow radix2 (-1000) <= Cmod (val d)).
    { destruct (Req_dec (B2R (fst z)) 1) as [E|E].
      - destruct H1 as [H1|H1]; [contradiction|]. eapply Rle_trans; [exact H1|]. eapply Rle_trans; [|exact (Cmod_snd (val d))]. rewrite D2, Ds, Rabs_Ropp. lra.
      - specialize (KU E). apply Rle_trans with (u / 2); [change (u / 2) with (bpow radix2 (-53) * bpow radix2 (-1)); rewrite <- bpow_plus; apply bpow_le; lia|].
        rewrite <- Df in KU. pose proof (Cmod_fst D) as T. pose proof (Cmod_tri_lo D (val d)) as T2. replace (Cminus D (val d)) with (Copp (Cminus (val d) D)) in T2 by ring. rewrite Cmod_opp in T2. lra. }
    assert (HI : Cmod (val d) <= 10 ^ 29).
    { pose proof (Cmod_tri_lo (val d) D) as T. assert (Cmod D <= 1 + Cmod (val z)); [|lra]. unfold D, Cminus. eapply Rle_trans; [apply Cmod_triangle|]. rewrite Cmod_opp, Cmod_1. lra. }
    unfold Li_clog. rewrite (eqb_R L (snd d) _ Fd2 Fz), (ltb_R L _ (fst d) Fz Fd1), Vz.
    destruct (Req_dec (snd (val d)) 0) as [E|E].
    - assert (RB : Req_bool (B2R (snd d)) 0 = true) by (apply Req_bool_true; exact E). rewrite RB. assert (PD : 0 < fst D) by (destruct OD as [O|O]; [exact O|elim O; rewrite <- D2; exact E]). assert (Pd : 0 < fst (val d)).
      { rewrite (Rabs_pos_eq (fst D)) in D1 by lra. assert (u * fst D <= / 10 ^ 15 * fst D) by (apply Rmult_le_compat_r; lra). apply Rabs_le_between in D1. lra. }
      assert (RC : Rlt_bool 0 (B2R (fst d)) = true) by (apply Rlt_bool_true; exact Pd). rewrite RC. cbn [andb]. pose proof (A_close _ _ _ _ (log_acc _ _ _ _ _ HL (fst d) Fd1 Pd)) as AL. change (m_log _ _ L (fst d)) with (nlog N (fst d)) in AL.
      assert (EV : val d = RtoC (B2R (fst d))) by (unfold RtoC; rewrite (surjective_pairing (val d)), E; reflexivity). rewrite EV, Clog_pos by exact Pd. destruct AL as [FL DL].
      split; [split; [exact FL|exact Fz]|]. rewrite Cmod_R.
      eapply Rle_trans; [apply Cmod_re|].
      + cbn [Cieee.val Cminus Cplus Copp RtoC fst snd]. exact DL.
      + cbn [Cieee.val Cminus Cplus Copp RtoC fst snd]. rewrite Vz. ring.
      + lra.
    - assert (RB : Req_bool (B2R (snd d)) 0 = false) by (apply Req_bool_false; exact E). rewrite RB. cbn [andb]. exact (clog_ok L HL d (conj Fd1 Fd2) (or_intror E) (conj LOW HI)). }
  eapply CM_weak; [exact (CM_move L _ _ _ _ _ FIN LG)|]. assert (4 * u * Cmod (Clog (val d)) <= 4 * u * (Cmod (Clog D) + 101 / 99 * u)) by (apply Rmult_le_compat_l; lra). pose proof (Cmod_ge_0 (Clog D)). assert (0 <= u * Cmod (Clog D)) by (apply Rmult_le_pos; lra). lra.
Qed.

(** quotient by a perturbed denominator *)
Lemma cdiv_pert w d D r k : finc w -> CM d D (r * (u * Cmod D)) -> 0 <= r <= 10 -> 0 < k <= / 1000 -> eta <= u * k -> eta <= u * k * (/ 2 * (Cmod D * Cmod D)) -> 0 < Cmod D <= 10 ^ 13 -> Cmod (val w) * Cmod D <= 10 ^ 27 -> Cmod (val w) <= 10 ^ 59 * Cmod D ->
  CM (cdiv N w d) (Cdiv (val w) D) ((83 / 10 + 101 / 100 * r) * u * Cmod (Cdiv (val w) D) + 9 * u * k).
Proof.
  intros Fw Cd Hr Hk K1 K2 [D0 D1] H1 H2. pose proof u_b as U. pose proof (CM_mod L _ _ _ Cd) as M1. destruct Cd as [Fd DD]. pose proof (Cmod_tri_lo D (val d)) as M2. replace (Cminus D (val d)) with (Copp (Cminus (val d) D)) in M2 by ring. rewrite Cmod_opp in M2.
  set (m := Cmod D) in *. assert (um : 0 <= u * m <= m / 10 ^ 15) by (split; [apply Rmult_le_pos; lra|unfold Rdiv; rewrite (Rmult_comm u); apply Rmult_le_compat_l; lra]).
  assert (rm : 0 <= r * (u * m) <= 10 * (u * m)) by (split; [apply Rmult_le_pos; lra|apply Rmult_le_compat_r; lra]). set (dm := Cmod (val d)) in *. assert (B1 : 999 / 1000 * m <= dm <= 1001 / 1000 * m) by lra.
  pose proof (Cmod_ge_0 (val w)) as W0.
  assert (dq : / 2 * (m * m) <= dm * dm) by nra.
  assert (HQ : eta <= u * k * (dm * dm)). { eapply Rle_trans; [exact K2|]. apply Rmult_le_compat_l; [apply Rmult_le_pos; lra|exact dq]. }
  pose proof (cdiv_gen w d k Fw Fd Hk K1 HQ ltac:(fold dm; lra)) as G. fold dm in G.
  specialize (G ltac:(assert (Cmod (val w) * dm <= Cmod (val w) * (1001 / 1000 * m)) by (apply Rmult_le_compat_l; lra); lra) ltac:(lra)).
  assert (DN : D <> RtoC 0) by (intros E; unfold m in D0; rewrite E, Cmod_0 in D0; lra). assert (dN : val d <> RtoC 0) by (intros E; unfold dm in B1; rewrite E, Cmod_0 in B1; lra).
  set (Q := Cmod (Cdiv (val w) D)). assert (Q0 : 0 <= Q) by apply Cmod_ge_0. assert (uQ : 0 <= u * Q <= Q / 10 ^ 15) by (split; [apply Rmult_le_pos; lra|unfold Rdiv; rewrite (Rmult_comm u); apply Rmult_le_compat_l; lra]).
  assert (PE : Cmod (Cminus (Cdiv (val w) (val d)) (Cdiv (val w) D)) <= 1002 / 1000 * r * (u * Q)).
  { replace (Cminus (Cdiv (val w) (val d)) (Cdiv (val w) D)) with (Cmult (Cdiv (val w) D) (Cdiv (Copp (Cminus (val d) D)) (val d))) by (field; split; assumption). rewrite Cmod_mult. fold Q. rewrite Cmod_div, Cmod_opp by exact dN. fold dm.
    assert (Cmod (Cminus (val d) D) / dm <= r * (u * m) / (999 / 1000 * m)). { unfold Rdiv. apply Rmult_le_compat; [apply Cmod_ge_0|left; apply Rinv_0_lt_compat; lra|exact DD|apply Rinv_le_contravar; lra]. }
    replace (r * (u * m) / (999 / 1000 * m)) with (1000 / 999 * r * u) in H by (field; lra). apply Rle_trans with (Q * (1000 / 999 * r * u)); [apply Rmult_le_compat_l; assumption|]. assert (0 <= r * (u * Q)) by (apply Rmult_le_pos; lra). lra. }
  assert (QD : Cmod (Cdiv (val w) (val d)) <= 1011 / 1000 * Q).
  { replace (Cdiv (val w) (val d)) with (Cplus (Cdiv (val w) D) (Cminus (Cdiv (val w) (val d)) (Cdiv (val w) D))) by ring. eapply Rle_trans; [apply Cmod_triangle|]. fold Q. assert (r * (u * Q) <= 10 * (u * Q)) by (apply Rmult_le_compat_r; lra). lra. }
  assert (0 <= r * (u * Q)) by (apply Rmult_le_pos; lra).
  eapply CM_weak; [exact (CM_move L _ _ _ _ _ G PE)|]. assert (8 * u * Cmod (Cdiv (val w) (val d)) <= 8 * u * (1011 / 1000 * Q)) by (apply Rmult_le_compat_l; lra). lra.
Qed.
Lemma k700 : 0 < bpow radix2 (-700) <= / 1000 /\ eta <= u * bpow radix2 (-700) /\ (forall q, bpow radix2 (-260) <= q -> eta <= u * bpow radix2 (-700) * q).
Proof.
  split; [split; [apply bpow_gt_0|apply Rle_trans with (bpow radix2 (-10)); [apply bpow_le; lia|rewrite bpow_exp; change (IZR radix2) with 2; interval]]|]. unfold Fcalc.u, Fcalc.eta. split; [rewrite <- bpow_plus; apply bpow_le; lia|].
  intros q Hq. eapply Rle_trans; [|apply Rmult_le_compat_l; [apply Rmult_le_pos; apply bpow_ge_0|exact Hq]]. rewrite <- !bpow_plus. apply bpow_le. lia.
Qed.
Lemma low60 : / 10 ^ 19 <= bpow radix2 (-60).
Proof. rewrite bpow_exp. change (IZR radix2) with 2. interval. Qed.
(** away from z = 1 *)
Lemma far1 z : finc z -> Cmod (val z) <= 10 ^ 28 -> (B2R (fst z) <> 1 \/ bpow radix2 (-60) <= Rabs (B2R (snd z))) -> bpow radix2 (-60) <= Cmod (Cminus (RtoC 1) (val z)).
Proof.
  intros F HM H. destruct (sub1_ok z F HM) as (_ & _ & _ & KU). set (D := Cminus (RtoC 1) (val z)) in *.
  assert (Df : fst D = 1 - B2R (fst z)) by (unfold D, Cminus, Cplus, Copp, RtoC, Cieee.val; cbn [fst snd]; ring). assert (Ds : snd D = - B2R (snd z)) by (unfold D, Cminus, Cplus, Copp, RtoC, Cieee.val; cbn [fst snd]; ring).
  destruct (Req_dec (B2R (fst z)) 1) as [E|E].
  - destruct H as [H|H]; [contradiction|]. eapply Rle_trans; [exact H|]. eapply Rle_trans; [|exact (Cmod_snd D)]. rewrite Ds, Rabs_Ropp. lra.
  - specialize (KU E). eapply Rle_trans; [|exact (Cmod_fst D)]. rewrite Df. eapply Rle_trans; [|exact KU]. apply bpow_le. lia.
Qed.
Lemma mod1 (Z : C) : Cmod (Cminus (RtoC 1) Z) <= 1 + Cmod Z /\ Cmod Z <= 1 + Cmod (Cminus (RtoC 1) Z).
Proof.
  split; [unfold Cminus; eapply Rle_trans; [apply Cmod_triangle|]; rewrite Cmod_opp, Cmod_1; lra|].
  replace Z with (Cplus (RtoC 1) (Copp (Cminus (RtoC 1) Z))) at 1 by ring. eapply Rle_trans; [apply Cmod_triangle|]. rewrite Cmod_opp, Cmod_1. lra.
Qed.

(** z/(1-z) *)
Lemma ord0_ok z : finc z -> Cmod (val z) <= 10 ^ 12 -> (B2R (fst z) <> 1 \/ bpow radix2 (-60) <= Rabs (B2R (snd z))) ->
  CM (cdiv N z (csub_rc N (lit N 1 0) z)) (Cdiv (val z) (Cminus (RtoC 1) (val z))) (10 * u * Cmod (Cdiv (val z) (Cminus (RtoC 1) (val z))) + 9 * u * bpow radix2 (-700)).
Proof.
  intros F HM H. pose proof u_b as U. destruct (sub1_C z F ltac:(lra)) as (Fd & DD & _ & _). pose proof (far1 z F ltac:(lra) H) as LO. destruct (mod1 (val z)) as [M1 M2]. set (D := Cminus (RtoC 1) (val z)) in *. set (d := csub_rc N (lit N 1 0) z) in *. pose proof low60 as L60. destruct k700 as (K0 & K1 & K2).
  pose proof (Cmod_ge_0 (val z)) as W0.
  assert (D0 : 0 < Cmod D) by lra.
  pose proof (cdiv_pert z d D (101 / 100) (bpow radix2 (-700)) F) as G. specialize (G ltac:(split; [exact Fd|exact DD]) ltac:(lra) K0 K1).
  assert (HQ : eta <= u * bpow radix2 (-700) * (/ 2 * (Cmod D * Cmod D))).
  { apply K2. apply Rle_trans with (/ 2 * (bpow radix2 (-60) * bpow radix2 (-60))); [rewrite <- bpow_plus; change (/ 2) with (bpow radix2 (-1)); rewrite <- bpow_plus; apply bpow_le; lia|]. apply Rmult_le_compat_l; [lra|]. apply Rmult_le_compat; lra. }
  specialize (G HQ ltac:(lra)). specialize (G ltac:(assert (Cmod (val z) * Cmod D <= 10 ^ 12 * 10 ^ 13) by (apply Rmult_le_compat; lra); lra) ltac:(lra)).
  eapply CM_weak; [exact G|]. pose proof (Cmod_ge_0 (Cdiv (val z) D)). assert (0 <= u * Cmod (Cdiv (val z) D)) by (apply Rmult_le_pos; lra). lra.
Qed.

(** z/(1-z)^2 *)
Lemma ordm1_ok z : finc z -> Cmod (val z) <= 10 ^ 6 -> (B2R (fst z) <> 1 \/ bpow radix2 (-60) <= Rabs (B2R (snd z))) ->
  let D := Cminus (RtoC 1) (val z) in let d := csub_rc N (lit N 1 0) z in
  CM (cdiv N z (cmul N d d)) (Cdiv (val z) (Cmult D D)) (15 * u * Cmod (Cdiv (val z) (Cmult D D)) + 9 * u * bpow radix2 (-700)).
Proof.
  intros F HM H D d. pose proof u_b as U. destruct (sub1_C z F ltac:(lra)) as (Fd & DD & _ & _). pose proof (far1 z F ltac:(lra) H) as LO. destruct (mod1 (val z)) as [M1 M2]. fold D in DD, LO, M1, M2. fold d in Fd, DD. pose proof low60 as L60. destruct k700 as (K0 & K1 & K2).
  pose proof (Cmod_ge_0 (val z)) as W0. set (m := Cmod D) in *. assert (m0 : 0 < m) by lra.
  assert (um : 0 <= u * m <= m / 10 ^ 15) by (split; [apply Rmult_le_pos; lra|unfold Rdiv; rewrite (Rmult_comm u); apply Rmult_le_compat_l; lra]).
  assert (mm : bpow radix2 (-120) <= m * m) by (replace (bpow radix2 (-120)) with (bpow radix2 (-60) * bpow radix2 (-60)) by (rewrite <- bpow_plus; reflexivity); apply Rmult_le_compat; lra).
  assert (mh : m * m <= 2 * 10 ^ 12) by (apply Rle_trans with ((1 + 10 ^ 6) * (1 + 10 ^ 6)); [apply Rmult_le_compat; lra|lra]).
  assert (ml : / 10 ^ 38 <= m * m) by (replace (/ 10 ^ 38) with (/ 10 ^ 19 * / 10 ^ 19) by lra; apply Rmult_le_compat; lra).
  assert (Cd : CM d D (101 / 100 * (u * m))) by (split; [exact Fd|exact DD]).
  pose proof (cmul_ok L d d D D _ _ (1001 / 1000 * m) (1001 / 1000 * m) Cd Cd ltac:(fold m; lra) ltac:(fold m; lra) ltac:(fold m; lra) ltac:(lra)) as CP.
  assert (ET : eta <= u * (m * m) / 1000). { pose proof eta_1 as ET. assert (u * / 10 ^ 38 <= u * (m * m)) by (apply Rmult_le_compat_l; lra). lra. }
  assert (umm : 0 <= u * (m * m)) by (repeat apply Rmult_le_pos; lra).
  assert (DM : Cmod (Cmult D D) = m * m) by apply Cmod_mult.
  assert (CE : CM (cmul N d d) (Cmult D D) (52 / 10 * (u * Cmod (Cmult D D)))) by (eapply CM_weak; [exact CP|]; rewrite DM; lra).
  pose proof (cdiv_pert z _ _ (52 / 10) (bpow radix2 (-700)) F CE ltac:(lra) K0 K1) as G. rewrite DM in G.
  assert (HQ : eta <= u * bpow radix2 (-700) * (/ 2 * (m * m * (m * m)))).
  { apply K2. apply Rle_trans with (/ 2 * (bpow radix2 (-120) * bpow radix2 (-120))); [rewrite <- bpow_plus; change (/ 2) with (bpow radix2 (-1)); rewrite <- bpow_plus; apply bpow_le; lia|]. apply Rmult_le_compat_l; [lra|]. pose proof (bpow_gt_0 radix2 (-120)). apply Rmult_le_compat; lra. }
  specialize (G HQ ltac:(lra)). specialize (G ltac:(assert (Cmod (val z) * (m * m) <= 10 ^ 6 * (2 * 10 ^ 12)) by (apply Rmult_le_compat; [exact W0|lra|exact HM|exact mh]); lra)).
  assert (HW : Cmod (val z) <= 10 ^ 59 * (m * m)).
  { assert (10 ^ 59 * (m * m) >= 10 ^ 59 * / 10 ^ 38) by lra. lra. }
  specialize (G HW). eapply CM_weak; [exact G|]. pose proof (Cmod_ge_0 (Cdiv (val z) (Cmult D D))). assert (0 <= u * Cmod (Cdiv (val z) (Cmult D D))) by (apply Rmult_le_pos; lra). lra.
Qed.
End C.
