(** * C55: Li(n,z) for every n >= 7 in the square |Re z|, |Im z| <= 1/5 is accurate to 19 units of
    2^-53 |z|, plus 2^-1057 for gradual underflow

    C54 says that the call returns there; this says what it returns, in
    round-to-nearest double arithmetic with subnormals, any C library that meets
    [libm_ok] behind pow. Every order up to 2^63 - 1 is covered: the errors of
    pow(k/(k+1), n) grow with n, but the terms they meet shrink faster, and above
    a million the loop returns its argument. *)
From Coq Require Import ZArith Reals Bool Lia Lra Psatz List.
From Coquelicot Require Import Coquelicot.
From Flocq Require Import Core IEEE754.BinarySingleNaN.
From Verif Require Import Outcome Num NumR Spec NumB NumB_facts Proof_Float Libm Fcalc Cplx Ccalc CLi CLi_disc Model_LiC Model_Li Ieee Li34_ieee Cieee CvsCpp CLi2_ieee CSeries_ieee CSeries2_ieee CSeries3_ieee CSeries4_ieee Properties_J Properties_ZC Properties_ZD Properties_ZE Properties_ZF.
Import ListNotations.
Local Open Scope R_scope.
Local Notation is_finite := BinarySingleNaN.is_finite.

Section T.
Variable L : libm 53 1024.
Hypothesis HL : libm_ok (Hp := Hp53) (He := He53) L.
Notation N := (B64 L).
Theorem C55_Li_square (d fuel n : nat) (z : cpx N) : (7 <= n)%nat -> (Z.of_nat n <= INT64_MAX)%Z -> cfinite z -> Rabs (B2R (fst z)) <= / 5 -> Rabs (B2R (snd z)) <= / 5 ->
  (3531 <= Z.of_nat fuel)%Z ->
  exists v, Li N d fuel (Z.of_nat n) z = Val v /\ cfinite v /\ Cmod (Cminus (cval v) (CLi n (cval z))) <= 19 * bpow radix2 (-53) * Cmod (cval z) + bpow radix2 (-1057).
Proof.
  intros Hn Hn2 F Bx By Hf. destruct (fin_nan L z F) as [Nn Ni].
  assert (NI : forall k, cval z = RtoC (IZR k) -> (k = 0)%Z).
  { intros k E. assert (E2 : B2R (fst z) = IZR k) by (apply (f_equal fst) in E; exact E). assert (E3 : Rabs (IZR k) <= / 5) by (rewrite <- E2; exact Bx). apply Rabs_le_inv in E3.
    assert (-1 < IZR k < 1) as [K1 K2] by lra. apply lt_IZR in K1. apply lt_IZR in K2. lia. }
  assert (RHS : 0 <= 19 * bpow radix2 (-53) * Cmod (cval z) + bpow radix2 (-1057)).
  { pose proof (Cmod_ge_0 (cval z)). pose proof (bpow_ge_0 radix2 (-53)). pose proof (bpow_ge_0 radix2 (-1057)). apply Rplus_le_le_0_compat; [apply Rmult_le_pos; [apply Rmult_le_pos; lra|assumption]|assumption]. }
  destruct (at_int L z 0 F ltac:(lia)) as [[T0 V0]|[T0 V0]].
  { exists z. rewrite (disp_0 N d fuel z Nn Ni _ T0). split; [reflexivity|]. split; [exact F|]. rewrite V0. rewrite CLi_0. replace (Cminus (RtoC (IZR 0)) (RtoC 0)) with (RtoC 0) by ring. rewrite Cmod_0. rewrite V0, Cmod_0 in RHS. exact RHS. }
  destruct (at_int L z 1 F ltac:(lia)) as [[T1 V1]|[T1 V1]]; [specialize (NI _ V1); discriminate|]. destruct (at_int L z (-1) F ltac:(lia)) as [[T2 V2]|[T2 V2]]; [specialize (NI _ V2); discriminate|].
  rewrite (disp_series N d fuel (Z.of_nat n) z ltac:(lia) Nn Ni T0 T1 T2 (norm_le2 L z F Bx By)).
  destruct (Z_lt_le_dec (10 ^ 6) (Z.of_nat n)) as [Big|Small].
  { destruct (series_id L HL (Z.of_nat n) ltac:(lia) z F (conj Bx By) fuel ltac:(lia)) as (v & E & Fv & V). exists v. split; [exact E|]. split; [exact Fv|]. replace (cval v) with (cval z) by (symmetry; exact V).
    assert (M : Cmod (cval z) <= 3 / 10) by (eapply Rle_trans; [apply (Cmod_comp _ (/ 5)); assumption|lra]). pose proof (CLi_near n (cval z) Hn M) as Nr.
    replace (Cminus (cval z) (CLi n (cval z))) with (Copp (Cminus (CLi n (cval z)) (cval z))) by ring. rewrite Cmod_opp. eapply Rle_trans; [exact Nr|].
    assert (P : bpow radix2 53 <= 2 ^ n). { change (bpow radix2 53) with 9007199254740992. replace 9007199254740992 with (2 ^ 53) by lra. apply Rle_pow; [lra|]. apply Nat2Z.inj_le. lia. }
    assert (I : / 2 ^ n <= bpow radix2 (-53)) by (rewrite (bpow_opp radix2 53 : bpow radix2 (-53) = / bpow radix2 53); apply Rinv_le_contravar; [apply bpow_gt_0|exact P]).
    pose proof (Cmod_ge_0 (cval z)). pose proof (bpow_ge_0 radix2 (-53)). pose proof (bpow_ge_0 radix2 (-1057)). assert (0 <= bpow radix2 (-53) * Cmod (cval z)) by (apply Rmult_le_pos; assumption).
    assert (J : Cmod (cval z) * / 2 ^ n <= Cmod (cval z) * bpow radix2 (-53)) by (apply Rmult_le_compat_l; assumption). unfold Rdiv. replace (19 * bpow radix2 (-53) * Cmod (cval z)) with (19 * (bpow radix2 (-53) * Cmod (cval z))) by ring. lra. }
  assert (Hn3 : INR n <= 10 ^ 6) by (rewrite INR_IZR_INZ; replace (10 ^ 6) with (IZR (10 ^ 6)) by (cbn; lra); apply IZR_le; exact Small).
  destruct (series_acc L HL n Hn Hn3 z F (conj Bx By) fuel (Z.to_nat 3530)) as (v & E & Fv & A); [lia|lia|exact pow_small|].
  exists v. split; [exact E|]. split; [exact Fv|]. change (Cieee.val L v) with (cval v) in A. change (Cieee.val L z) with (cval z) in A. eapply Rle_trans; [exact A|].
  assert (W : 80100 * w <= bpow radix2 (-1057)). { replace (-1057)%Z with (17 + -1074)%Z by lia. rewrite bpow_plus. apply Rmult_le_compat_r; [apply bpow_ge_0|]. change (bpow radix2 17) with 131072. lra. }
  assert (U : Fcalc.u 53 = bpow radix2 (-53)) by reflexivity. rewrite U. pose proof (Cmod_ge_0 (cval z)). pose proof (bpow_ge_0 radix2 (-53)). assert (0 <= bpow radix2 (-53) * Cmod (cval z)) by (apply Rmult_le_pos; assumption).
  replace (19 * bpow radix2 (-53) * Cmod (cval z)) with (19 * (bpow radix2 (-53) * Cmod (cval z))) by ring. lra.
Qed.
Lemma CLi_lo (n : nat) (z : C) : (7 <= n)%nat -> Cmod z <= 3 / 10 -> 99 / 100 * Cmod z <= Cmod (CLi n z).
Proof.
  intros Hn Hz. pose proof (Cmod_ge_0 z) as Z0. pose proof (Li_gen.disc_tail n z 1 ltac:(lia) ltac:(lra)) as DT.
  assert (T1 : Cmod (pterm n z 1) <= Cmod z * / 200).
  { rewrite Li_gen.pterm_mod. change (INR 2) with (1 + 1). assert (P : 128 <= (1 + 1) ^ n) by (replace 128 with ((1 + 1) ^ 7) by lra; apply Rle_pow; [lra|exact Hn]).
    apply Rle_div_l; [lra|]. cbn [pow]. assert (A : Cmod z * Cmod z <= Cmod z * (3 / 10)) by (apply Rmult_le_compat_l; lra). assert (B : Cmod z * / 200 * 128 <= Cmod z * / 200 * (1 + 1) ^ n) by (apply Rmult_le_compat_l; lra). lra. }
  assert (G : 0 <= Cmod z / (1 - Cmod z) <= 3 / 7) by (split; [apply Rdiv_le_0_compat; lra|apply Rle_div_l; lra]).
  assert (T0 : 0 <= Cmod (pterm n z 1)) by apply Cmod_ge_0. assert (TG : Cmod (pterm n z 1) * (Cmod z / (1 - Cmod z)) <= Cmod (pterm n z 1) * (3 / 7)) by (apply Rmult_le_compat_l; lra).
  assert (E : Csum (pterm n z) 2 = Cplus z (pterm n z 1)).
  { cbn [Csum]. replace (pterm n z 0) with z; [ring|]. unfold pterm. cbn [INR]. rewrite pow1. cbn [Cpow]. field. apply RtoC_neq. lra. }
  rewrite E in DT. assert (S1 : Cmod z <= Cmod (CLi n z) + (Cmod (Cminus (CLi n z) (Cplus z (pterm n z 1))) + Cmod (pterm n z 1))).
  { replace z with (Cplus (CLi n z) (Copp (Cplus (Cminus (CLi n z) (Cplus z (pterm n z 1))) (pterm n z 1)))) at 1 by ring. eapply Rle_trans; [apply Cmod_triangle|]. rewrite Cmod_opp. apply Rplus_le_compat_l, Cmod_triangle. }
  lra.
Qed.
Theorem C55_Li_square_rel (d fuel n : nat) (z : cpx N) : (7 <= n)%nat -> (Z.of_nat n <= INT64_MAX)%Z -> cfinite z -> Rabs (B2R (fst z)) <= / 5 -> Rabs (B2R (snd z)) <= / 5 ->
  bpow radix2 (-1000) <= Cmod (cval z) -> (3531 <= Z.of_nat fuel)%Z ->
  exists v, Li N d fuel (Z.of_nat n) z = Val v /\ cfinite v /\ Cmod (Cminus (cval v) (CLi n (cval z))) <= 20 * bpow radix2 (-53) * Cmod (CLi n (cval z)).
Proof.
  intros Hn Hn2 F Bx By Hz Hf. destruct (C55_Li_square d fuel n z Hn Hn2 F Bx By Hf) as (v & E & Fv & A). exists v. split; [exact E|]. split; [exact Fv|]. eapply Rle_trans; [exact A|].
  assert (M : Cmod (cval z) <= 3 / 10) by (eapply Rle_trans; [apply (Cmod_comp _ (/ 5)); assumption|lra]). pose proof (CLi_lo n (cval z) Hn M) as Lo.
  pose proof (bpow_gt_0 radix2 (-53)) as B0. assert (S1 : bpow radix2 (-1057) <= / 10 * (bpow radix2 (-53) * Cmod (cval z))).
  { apply Rle_trans with (/ 10 * (bpow radix2 (-53) * bpow radix2 (-1000))). - replace (-1057)%Z with (-4 + (-53 + -1000))%Z by lia. rewrite !bpow_plus. apply Rmult_le_compat_r; [apply Rmult_le_pos; apply bpow_ge_0|]. change (bpow radix2 (-4)) with (/ 16). lra.
    - apply Rmult_le_compat_l; [lra|]. apply Rmult_le_compat_l; [lra|exact Hz]. }
  set (b := bpow radix2 (-53)) in *. assert (0 <= b * Cmod (cval z)) by (apply Rmult_le_pos; [lra|apply Cmod_ge_0]).
  assert (X : b * (99 / 100 * Cmod (cval z)) <= b * Cmod (CLi n (cval z))) by (apply Rmult_le_compat_l; lra).
  replace (19 * b * Cmod (cval z)) with (19 * (b * Cmod (cval z))) by ring. replace (20 * b * Cmod (CLi n (cval z))) with (20 * (b * Cmod (CLi n (cval z)))) by ring. lra.
Qed.
(** above order 2000 the value returned is the argument itself *)
Theorem C55_Li_large_order (d fuel : nat) (n : Z) (z : cpx N) : (2000 <= n <= INT64_MAX)%Z -> cfinite z -> Rabs (B2R (fst z)) <= / 5 -> Rabs (B2R (snd z)) <= / 5 ->
  (2 <= fuel)%nat -> exists v, Li N d fuel n z = Val v /\ cfinite v /\ cval v = cval z.
Proof.
  intros Hn F Bx By Hf. destruct (fin_nan L z F) as [Nn Ni].
  assert (NI : forall k, cval z = RtoC (IZR k) -> (k = 0)%Z).
  { intros k E. assert (E2 : B2R (fst z) = IZR k) by (apply (f_equal fst) in E; exact E). assert (E3 : Rabs (IZR k) <= / 5) by (rewrite <- E2; exact Bx). apply Rabs_le_inv in E3.
    assert (-1 < IZR k < 1) as [K1 K2] by lra. apply lt_IZR in K1. apply lt_IZR in K2. lia. }
  destruct (at_int L z 0 F ltac:(lia)) as [[T0 V0]|[T0 V0]].
  { exists z. rewrite (disp_0 N d fuel z Nn Ni _ T0). split; [reflexivity|]. split; [exact F|reflexivity]. }
  destruct (at_int L z 1 F ltac:(lia)) as [[T1 V1]|[T1 V1]]; [specialize (NI _ V1); discriminate|]. destruct (at_int L z (-1) F ltac:(lia)) as [[T2 V2]|[T2 V2]]; [specialize (NI _ V2); discriminate|].
  rewrite (disp_series N d fuel n z ltac:(lia) Nn Ni T0 T1 T2 (norm_le2 L z F Bx By)).
  destruct (series_id L HL n Hn z F (conj Bx By) fuel Hf) as (v & E & Fv & V). exists v. split; [exact E|]. split; [exact Fv|exact V].
Qed.
End T.

(** the hypotheses are met for the order 100 (any from 7 to 2^63 - 1) at z = (2^-3, 2^k), k down to the smallest double *)
Example C55_example : libm_ok (Hp := Hp53) (He := He53) (libm_cr 53 1024 Hp53 He53) /\ (7 <= 10 * 10)%nat /\ (Z.of_nat (10 * 10) <= INT64_MAX)%Z /\
  forall k, (-1074 <= k <= -3)%Z -> exists z : binary_float 53 1024 * binary_float 53 1024, cfinite z /\ cval z = (bpow radix2 (-3), bpow radix2 k) /\ Rabs (B2R (fst z)) <= / 5 /\ Rabs (B2R (snd z)) <= / 5 /\ bpow radix2 (-1000) <= Cmod (cval z).
Proof.
  destruct C54_example as [A B]. split; [exact A|]. split; [lia|]. split; [unfold INT64_MAX; lia|]. intros k Hk. destruct (B k Hk) as (z & F & V & X & Y). exists z. split; [exact F|]. split; [exact V|]. split; [exact X|]. split; [exact Y|].
  rewrite V. pose proof (Cmod_fst (bpow radix2 (-3), bpow radix2 k)) as M. cbn [fst] in M. rewrite Rabs_pos_eq in M by apply bpow_ge_0. eapply Rle_trans; [|exact M]. apply bpow_le. lia.
Qed.
