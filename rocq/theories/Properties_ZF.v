(** * C54: Li(n,z) for n >= 7 in the square |Re z|, |Im z| <= 1/5 returns after at most 3531 passes

    The counterpart of C53: far enough inside the disc of the power series the
    terms do vanish in double arithmetic, subnormal range included, because
    two rounded products with factors below 0.2004 shrink every term by 81/100.
    For every order from 7 to 2^63 - 1 and every such z the call returns, with
    finite components, after at most 3531 passes, with any C library that
    meets [libm_ok]. *)
From Coq Require Import ZArith Reals Bool Lia Lra Psatz List.
From Coquelicot Require Import Coquelicot.
From Interval Require Import Tactic.
From Flocq Require Import Core IEEE754.BinarySingleNaN.
From Verif Require Import Outcome Num NumR NumB NumB_facts Proof_Float Libm Fcalc Cplx Ccalc CLi Model_LiC Model_Li Ieee Li34_ieee Cieee CvsCpp CLi2_ieee CSeries_ieee CSeries2_ieee Properties_J Properties_ZC Properties_ZD Properties_ZE.
Import ListNotations.
Local Open Scope R_scope.
Local Notation is_finite := BinarySingleNaN.is_finite.

Lemma disp_series (N : num) d fuel n (z : cpx N) : (7 <= n)%Z ->
  (isnan N (fst z) || isnan N (snd z))%bool = false -> (isinf N (fst z) || isinf N (snd z))%bool = false ->
  (eqb N (fst z) (lit N 0 0) && eqb N (snd z) (lit N 0 0))%bool = false -> (eqb N (fst z) (lit N 1 0) && eqb N (snd z) (lit N 0 0))%bool = false ->
  (eqb N (fst z) (lit N (-1) 0) && eqb N (snd z) (lit N 0 0))%bool = false ->
  leb N (cnorm N z) (mul N (lit N 75 (-2)) (lit N 75 (-2))) = true -> Li N d fuel n z = Li_series N fuel n z.
Proof.
  intros Hn H1 H2 H3 H4 H5 H6. destruct d; cbn [Li]; cbv zeta; rewrite H1, H2, H3, H4, H5;
  (replace (n <? -1)%Z with false by (symmetry; apply Z.ltb_ge; lia)); repeat (match goal with |- context [(n =? ?k)%Z] => replace (n =? k)%Z with false by (symmetry; apply Z.eqb_neq; lia) end); rewrite H6; reflexivity.
Qed.

Lemma pow_small : (81 / 100) ^ Z.to_nat 3530 * / 5 < w.
Proof.
  rewrite <- (Rpower_pow (Z.to_nat 3530)) by lra. rewrite INR_IZR_INZ, Z2Nat.id by lia. unfold w. rewrite bpow_exp. change (IZR radix2) with 2.
  replace (/ 5) with (exp (ln (/ 5))) by (apply exp_ln; lra). unfold Rpower. rewrite <- exp_plus. apply exp_increasing. interval.
Qed.

Section T.
Variable L : libm 53 1024.
Hypothesis HL : libm_ok (Hp := Hp53) (He := He53) L.
Notation N := (B64 L).
Notation rnd := (round radix2 (SpecFloat.fexp 53 1024) ZnearestE).
Lemma norm_le2 (z : cpx N) : cfinite z -> Rabs (B2R (fst z)) <= / 5 -> Rabs (B2R (snd z)) <= / 5 -> leb N (cnorm N z) (mul N (lit N 75 (-2)) (lit N 75 (-2))) = true.
Proof.
  intros [Fx Fy] Bx By. destruct (lit34 L) as [Fl Vl]. pose proof w_pos as W. pose proof w_small as WS. assert (U : 0 < Fcalc.u 53 <= / 10000) by (pose proof u_b; lra).
  assert (Q : forall f : binary_float 53 1024, is_finite f = true -> Rabs (B2R f) <= / 5 -> is_finite (mul N f f) = true /\ Rabs (B2R (mul N f f)) <= / 20).
  { intros f Ff Bf. assert (P : Rabs (B2R f * B2R f) <= / 25) by (rewrite Rabs_mult; replace (/ 25) with (/ 5 * / 5) by lra; apply Rmult_le_compat; try assumption; apply Rabs_pos).
    destruct (mul_b L f f Ff Ff) as [F V]; [apply big_2; lra|]. split; [exact F|]. rewrite V. eapply Rle_trans; [apply abs_err|]. pose proof (Rabs_pos (B2R f * B2R f)). assert (Rabs (B2R f * B2R f) * Fcalc.u 53 <= / 25 * / 10000) by (apply Rmult_le_compat; lra). lra. }
  destruct (Q _ Fx Bx) as [F1 B1]. destruct (Q _ Fy By) as [F2 B2].
  assert (B3 : Rabs (B2R (mul N (fst z) (fst z)) + B2R (mul N (snd z) (snd z))) <= / 10) by (eapply Rle_trans; [apply Rabs_triang|]; apply Rle_trans with (/ 20 + / 20); [apply Rplus_le_compat; assumption|lra]).
  destruct (add_b L _ _ F1 F2) as [F4 V4]; [apply big_2; eapply Rle_trans; [exact B3|lra]|].
  destruct (mul_b L (lit N 75 (-2)) (lit N 75 (-2)) Fl Fl) as [F3 V3]; [apply big_2; rewrite Vl, Rabs_pos_eq; lra|]. rewrite Vl in V3.
  eapply eq_trans; [exact (leb_R L _ _ F4 F3)|]. rewrite V4, V3. apply Rle_bool_true, rmono. apply Rabs_le_inv in B3. eapply Rle_trans; [apply B3|lra].
Qed.

Theorem C54_Li_returns (d fuel : nat) (n : Z) (z : cpx N) : (7 <= n <= INT64_MAX)%Z -> cfinite z -> Rabs (B2R (fst z)) <= / 5 -> Rabs (B2R (snd z)) <= / 5 ->
  (3531 <= Z.of_nat fuel)%Z -> returns (Li N d fuel n z) cfinite.
Proof.
  intros Hn F Bx By Hf. destruct (fin_nan L z F) as [Nn Ni].
  assert (NI : forall k, cval z = RtoC (IZR k) -> (k = 0)%Z).
  { intros k E. assert (E2 : B2R (fst z) = IZR k) by (apply (f_equal fst) in E; exact E). assert (E3 : Rabs (IZR k) <= / 5) by (rewrite <- E2; exact Bx). apply Rabs_le_inv in E3.
    assert (-1 < IZR k < 1) as [K1 K2] by lra. apply lt_IZR in K1. apply lt_IZR in K2. lia. }
  destruct (at_int L z 0 F ltac:(lia)) as [[T0 V0]|[T0 V0]].
  { exists z. rewrite (disp_0 N d fuel z Nn Ni n T0). split; [reflexivity|exact F]. }
  destruct (at_int L z 1 F ltac:(lia)) as [[T1 V1]|[T1 V1]]; [specialize (NI _ V1); discriminate|]. destruct (at_int L z (-1) F ltac:(lia)) as [[T2 V2]|[T2 V2]]; [specialize (NI _ V2); discriminate|].
  rewrite (disp_series N d fuel n z ltac:(lia) Nn Ni T0 T1 T2 (norm_le2 z F Bx By)).
  destruct (int_v L 0 ltac:(lia)) as [F0 Vz0].
  destruct (stops L HL z F (conj Bx By) n Hn (Z.to_nat 3530) fuel 0 (czero N) z (/ 5)) as (v & E & Fv).
  - lia.
  - lia.
  - lia.
  - split; exact F0.
  - unfold cle, czero. cbn [fst snd]. rewrite Vz0, Rabs_R0. split; apply Rle_refl.
  - exact F.
  - split; assumption.
  - lra.
  - exact pow_small.
  - exists v. split; [exact E|exact Fv].
Qed.
End T.

(** the hypotheses are met: the smallest double beside 1/5 and beside 0 among them *)
Example C54_example : libm_ok (Hp := Hp53) (He := He53) (libm_cr 53 1024 Hp53 He53) /\
  forall k, (-1074 <= k <= -3)%Z -> exists z : binary_float 53 1024 * binary_float 53 1024, cfinite z /\ cval z = (bpow radix2 (-3), bpow radix2 k) /\ Rabs (B2R (fst z)) <= / 5 /\ Rabs (B2R (snd z)) <= / 5.
Proof.
  split; [exact libm_ok_64|]. intros k Hk.
  assert (Q : forall j, (-1074 <= j <= -3)%Z -> B2R (bnorm 53 1024 Hp53 He53 1 j) = bpow radix2 j /\ is_finite (bnorm 53 1024 Hp53 He53 1 j) = true /\ Rabs (bpow radix2 j) <= / 5).
  { intros j Hj. destruct (bnorm_correct 53 1024 Hp53 He53 1 j) as [V2 F2].
    { rewrite F2R_bpow, rid by (apply fmt_b; lia). rewrite Rabs_pos_eq by apply bpow_ge_0. apply bpow_lt. lia. }
    rewrite F2R_bpow, rid in V2 by (apply fmt_b; lia). split; [exact V2|]. split; [exact F2|]. rewrite Rabs_pos_eq by apply bpow_ge_0. apply Rle_trans with (bpow radix2 (-3)); [apply bpow_le; lia|]. rewrite Fcalc.bp2. change (Pos.to_nat 3) with 3%nat. lra. }
  destruct (Q (-3)%Z ltac:(lia)) as (V1 & F1 & B1). destruct (Q k Hk) as (V2 & F2 & B2).
  exists (bnorm 53 1024 Hp53 He53 1 (-3), bnorm 53 1024 Hp53 He53 1 k). split; [split; [exact F1|exact F2]|]. unfold cval. cbn [fst snd]. rewrite V1, V2. split; [reflexivity|]. split; assumption.
Qed.
