(** * C56: Li(n,z) for 7 <= n <= 10^6 in the disc of its power series: real arguments, and every returned value

    On the real axis, |x| <= 3/4, the call returns and errs by at most
    53 * 2^-53 |x| + 2^-1056. Everywhere in the disc |z| <= 0.74 what is returned
    within 4000 passes obeys the same bound (that a complex argument need not
    return is C53). Round-to-nearest doubles with subnormals, any C library that
    meets [libm_ok]. *)
From Coq Require Import ZArith Reals Bool Lia Lra Psatz List.
From Coquelicot Require Import Coquelicot.
From Flocq Require Import Core IEEE754.BinarySingleNaN.
From Verif Require Import Outcome Num NumR Spec NumB NumB_facts Proof_Float Libm Fcalc Cplx Ccalc CLi CLi_disc Model_LiC Model_Li Ieee Li34_ieee Cieee CvsCpp CLi2_ieee CSeries_ieee CSeries2_ieee CSeries5_ieee CSeries6_ieee Properties_J Properties_ZC Properties_ZD Properties_ZE Properties_ZF Properties_ZG.
Import ListNotations.
Local Open Scope R_scope.
Local Notation is_finite := BinarySingleNaN.is_finite.

Lemma loop_more (N : num) n z v : forall f f' k s p, (f <= f')%nat -> Li_series_loop N f n z k s p = Val v -> Li_series_loop N f' n z k s p = Val v.
Proof.
  induction f as [|f IH]; intros f' k s p Hf H; [discriminate|]. destruct f' as [|f']; [lia|]. cbn [Li_series_loop] in H |- *. destruct (i64 (k + 1)) as [k'| |]; try discriminate. cbn [bind] in H |- *. cbv zeta in H |- *.
  destruct (negb _); [exact H|]. destruct (_ && _)%bool; [|exact H]. apply IH; [lia|exact H].
Qed.

Section T.
Variable L : libm 53 1024.
Hypothesis HL : libm_ok (Hp := Hp53) (He := He53) L.
Notation N := (B64 L).
Notation rnd := (round radix2 (SpecFloat.fexp 53 1024) ZnearestE).
Lemma not_int (z : cpx N) k : Cmod (cval z) <= 3 / 4 -> cval z = RtoC (IZR k) -> (k = 0)%Z.
Proof.
  intros M E. rewrite E, Cmod_R in M. apply Rabs_le_inv in M. assert (-1 < IZR k < 1) as [K1 K2] by lra. apply lt_IZR in K1. apply lt_IZR in K2. lia.
Qed.
Lemma norm_le3 (z : cpx N) : cfinite z -> Cmod (cval z) <= 74 / 100 -> leb N (cnorm N z) (mul N (lit N 75 (-2)) (lit N 75 (-2))) = true.
Proof.
  destruct z as [a b]. intros [Fx Fy] M. cbn [fst snd] in Fx, Fy. unfold cval in M. cbn [fst snd] in M. unfold cnorm. cbn [fst snd]. destruct (lit34 L) as [Fl Vl]. pose proof w_pos as W. assert (WW : w <= / 10 ^ 6) by (unfold w; apply Rle_trans with (bpow radix2 (-20)); [apply bpow_le; lia|change (bpow radix2 (-20)) with (/ 1048576); lra]).
  assert (U : 0 < Fcalc.u 53 <= / 10 ^ 6) by (pose proof u_b as U; split; [apply U|]; eapply Rle_trans; [apply U|]; lra).
  pose proof (Cmod_fst (B2R a, B2R b)) as M1. pose proof (Cmod_snd (B2R a, B2R b)) as M2. cbn [fst snd] in M1, M2.
  assert (SQ : B2R a * B2R a + B2R b * B2R b <= 5476 / 10000).
  { pose proof (Cmod_ge_0 (B2R a, B2R b)) as C0. assert (S2 : Cmod (B2R a, B2R b) * Cmod (B2R a, B2R b) <= 74 / 100 * (74 / 100)) by (apply Rmult_le_compat; assumption).
    assert (E : Cmod (B2R a, B2R b) * Cmod (B2R a, B2R b) = B2R a * B2R a + B2R b * B2R b). { unfold Cmod at 1 2. rewrite sqrt_sqrt; [cbn [fst snd pow]; rewrite !Rmult_1_r; reflexivity|]. apply Rplus_le_le_0_compat; apply pow2_ge_0. } lra. }
  assert (Q : forall f : binary_float 53 1024, is_finite f = true -> Rabs (B2R f) <= 3 / 4 -> is_finite (mul N f f) = true /\ Rabs (B2R (mul N f f)) <= B2R f * B2R f + / 10 ^ 5).
  { intros f Ff Bf. assert (S0 : 0 <= B2R f * B2R f) by apply Rle_0_sqr. assert (P : Rabs (B2R f * B2R f) <= 9 / 16) by (rewrite Rabs_mult; replace (9 / 16) with (3 / 4 * (3 / 4)) by lra; apply Rmult_le_compat; try assumption; apply Rabs_pos).
    destruct (mul_b L f f Ff Ff) as [F V]; [apply big_2; lra|]. split; [exact F|]. rewrite V. eapply Rle_trans; [apply abs_err|]. assert (Rabs (B2R f * B2R f) * Fcalc.u 53 <= 9 / 16 * / 10 ^ 6) by (apply Rmult_le_compat; try apply Rabs_pos; lra). rewrite (Rabs_pos_eq (B2R f * B2R f)) in * by exact S0. lra. }
  destruct (Q _ Fx ltac:(lra)) as [F1 B1]. destruct (Q _ Fy ltac:(lra)) as [F2 B2].
  assert (B3 : Rabs (B2R (mul N a a) + B2R (mul N b b)) <= 55 / 100) by (eapply Rle_trans; [apply Rabs_triang|]; lra).
  destruct (add_b L _ _ F1 F2) as [F4 V4]; [apply big_2; eapply Rle_trans; [exact B3|lra]|].
  destruct (mul_b L (lit N 75 (-2)) (lit N 75 (-2)) Fl Fl) as [F3 V3]; [apply big_2; rewrite Vl, Rabs_pos_eq; lra|]. rewrite Vl in V3.
  eapply eq_trans; [exact (leb_R L _ _ F4 F3)|]. rewrite V4, V3. apply Rle_bool_true, rmono. apply Rabs_le_inv in B3. eapply Rle_trans; [apply B3|lra].
Qed.
Lemma norm_re (z : cpx N) : cfinite z -> Rabs (B2R (fst z)) <= 3 / 4 -> B2R (snd z) = 0 -> leb N (cnorm N z) (mul N (lit N 75 (-2)) (lit N 75 (-2))) = true.
Proof.
  intros [Fx Fy] Bx Iz. destruct (lit34 L) as [Fl Vl].
  assert (P : Rabs (B2R (fst z) * B2R (fst z)) <= 3 / 4 * (3 / 4)) by (rewrite Rabs_mult; apply Rmult_le_compat; try assumption; apply Rabs_pos).
  destruct (mul_b L (fst z) (fst z) Fx Fx) as [F1 V1]; [apply big_2; lra|]. destruct (mul_b L (snd z) (snd z) Fy Fy) as [F2 V2]; [apply big_2; rewrite Iz, Rmult_0_l, Rabs_R0; lra|]. rewrite Iz, Rmult_0_l, round_0 in V2 by apply valid_rnd_N.
  destruct (mul_b L (lit N 75 (-2)) (lit N 75 (-2)) Fl Fl) as [F3 V3]; [apply big_2; rewrite Vl, Rabs_pos_eq; lra|]. rewrite Vl in V3.
  assert (B3 : Rabs (B2R (mul N (fst z) (fst z))) <= 2). { rewrite V1. eapply Rle_trans; [apply abs_err|]. pose proof w_small. pose proof u_b as U. assert (Rabs (B2R (fst z) * B2R (fst z)) * Fcalc.u 53 <= 1 * / 10 ^ 15) by (apply Rmult_le_compat; try apply Rabs_pos; lra). pose proof w_pos. rewrite Rmult_plus_distr_l. lra. }
  destruct (add_b L _ _ F1 F2) as [F4 V4]; [apply big_2; rewrite V2, Rplus_0_r; eapply Rle_trans; [exact B3|lra]|]. rewrite V2, Rplus_0_r, V1 in V4. rewrite rid in V4 by (apply generic_format_round; [exact (VE2)|apply valid_rnd_N]).
  eapply eq_trans; [exact (leb_R L _ _ F4 F3)|]. rewrite V4, V3. apply Rle_bool_true, rmono. apply Rabs_le_inv in P. lra.
Qed.
Lemma fin_bound (m : R) : 52 * (Fcalc.u 53 * m) + 240300 * w <= 53 * bpow radix2 (-53) * m + bpow radix2 (-1056) \/ m < 0.
Proof.
  destruct (Rle_lt_dec 0 m) as [H|H]; [left|right; exact H].
  assert (W : 240300 * w <= bpow radix2 (-1056)). { replace (-1056)%Z with (18 + -1074)%Z by lia. rewrite bpow_plus. apply Rmult_le_compat_r; [apply bpow_ge_0|]. change (bpow radix2 18) with 262144. lra. }
  assert (U : Fcalc.u 53 = bpow radix2 (-53)) by reflexivity. rewrite U. pose proof (bpow_ge_0 radix2 (-53)). assert (0 <= bpow radix2 (-53) * m) by (apply Rmult_le_pos; assumption).
  replace (53 * bpow radix2 (-53) * m) with (53 * (bpow radix2 (-53) * m)) by ring. lra.
Qed.
Lemma RHS_0 (z : cpx N) : 0 <= 53 * bpow radix2 (-53) * Cmod (cval z) + bpow radix2 (-1056).
Proof. pose proof (Cmod_ge_0 (cval z)). pose proof (bpow_ge_0 radix2 (-53)). pose proof (bpow_ge_0 radix2 (-1056)). apply Rplus_le_le_0_compat; [apply Rmult_le_pos; [apply Rmult_le_pos; lra|assumption]|assumption]. Qed.
Lemma INR_small (n : nat) : (Z.of_nat n <= 10 ^ 6)%Z -> INR n <= 10 ^ 6.
Proof. intros H. rewrite INR_IZR_INZ. replace (10 ^ 6) with (IZR (10 ^ 6)) by (cbn; lra). apply IZR_le. exact H. Qed.

(** what is returned in the disc is accurate *)
Theorem C56_Li_disc (d fuel n : nat) (z v : cpx N) : (7 <= n)%nat -> (Z.of_nat n <= 10 ^ 6)%Z -> cfinite z -> Cmod (cval z) <= 74 / 100 -> (Z.of_nat fuel <= 4000)%Z ->
  Li N d fuel (Z.of_nat n) z = Val v ->
  cfinite v /\ Cmod (Cminus (cval v) (CLi n (cval z))) <= 53 * bpow radix2 (-53) * Cmod (cval z) + bpow radix2 (-1056).
Proof.
  intros Hn Hn2 F M Hf HV. destruct (fin_nan L z F) as [Nn Ni]. pose proof (RHS_0 z) as RHS. assert (M' : Cmod (cval z) <= 3 / 4) by lra. pose proof (not_int z) as NI.
  destruct (at_int L z 0 F ltac:(lia)) as [[T0 V0]|[T0 V0]].
  { rewrite (disp_0 N d fuel z Nn Ni _ T0) in HV. injection HV as <-. split; [exact F|]. rewrite V0 in RHS |- *. rewrite CLi_0. replace (Cminus (RtoC (IZR 0)) (RtoC 0)) with (RtoC 0) by ring. rewrite Cmod_0 in *. exact RHS. }
  destruct (at_int L z 1 F ltac:(lia)) as [[T1 V1]|[T1 V1]]; [specialize (NI 1%Z M' V1); discriminate|]. destruct (at_int L z (-1) F ltac:(lia)) as [[T2 V2]|[T2 V2]]; [specialize (NI (-1)%Z M' V2); discriminate|].
  rewrite (disp_series N d fuel (Z.of_nat n) z ltac:(lia) Nn Ni T0 T1 T2 (norm_le3 z F M)) in HV.
  destruct (ret_acc L HL n Hn (INR_small n Hn2) z F M' fuel v ltac:(lia) HV) as [Fv A]. split; [exact Fv|]. eapply Rle_trans; [exact A|].
  destruct (fin_bound (Cmod (cval z))) as [B|B]; [exact B|]. pose proof (Cmod_ge_0 (cval z)). lra.
Qed.

(** on the real axis it returns, and is accurate *)
Theorem C56_Li_real (d fuel n : nat) (z : cpx N) : (7 <= n)%nat -> (Z.of_nat n <= 10 ^ 6)%Z -> cfinite z -> B2R (snd z) = 0 -> Rabs (B2R (fst z)) <= 3 / 4 -> (3531 <= Z.of_nat fuel)%Z ->
  exists v, Li N d fuel (Z.of_nat n) z = Val v /\ cfinite v /\ Cmod (Cminus (cval v) (CLi n (cval z))) <= 53 * bpow radix2 (-53) * Rabs (B2R (fst z)) + bpow radix2 (-1056).
Proof.
  intros Hn Hn2 F Iz Bx Hf. assert (CV : cval z = RtoC (B2R (fst z))) by exact (f_equal (fun t : R => (B2R (fst z), t) : C) Iz). assert (MX : Cmod (cval z) = Rabs (B2R (fst z))) by (rewrite CV; apply Cmod_R).
  destruct (Rle_lt_dec (Rabs (B2R (fst z))) (/ 5)) as [Sm|Bg].
  { assert (I5 : Rabs (B2R (snd z)) <= / 5) by (rewrite Iz, Rabs_R0; lra). destruct (C55_Li_square L HL d fuel n z Hn ltac:(unfold INT64_MAX; lia) F Sm I5 Hf) as (v & E & Fv & A). exists v. split; [exact E|]. split; [exact Fv|]. eapply Rle_trans; [exact A|]. rewrite MX. apply Rplus_le_compat.
    - apply Rmult_le_compat_r; [apply Rabs_pos|]. apply Rmult_le_compat_r; [apply bpow_ge_0|lra].
    - apply bpow_le. lia. }
  destruct (fin_nan L z F) as [Nn Ni]. assert (M' : Cmod (cval z) <= 3 / 4) by lra. pose proof (not_int z) as NI.
  destruct (at_int L z 0 F ltac:(lia)) as [[T0 V0]|[T0 V0]].
  { exfalso. rewrite V0, Cmod_0 in MX. lra. }
  destruct (at_int L z 1 F ltac:(lia)) as [[T1 V1]|[T1 V1]]; [specialize (NI 1%Z M' V1); discriminate|]. destruct (at_int L z (-1) F ltac:(lia)) as [[T2 V2]|[T2 V2]]; [specialize (NI (-1)%Z M' V2); discriminate|].
  rewrite (disp_series N d fuel (Z.of_nat n) z ltac:(lia) Nn Ni T0 T1 T2 (norm_re z F Bx Iz)).
  destruct (series_re L HL (Z.of_nat n) ltac:(unfold INT64_MAX; lia) z F ltac:(lra) Iz (Z.to_nat 132) ltac:(lia)) as (v & E & _).
  destruct (ret_acc L HL n Hn (INR_small n Hn2) z F M' (Z.to_nat 132) v ltac:(lia) E) as [Fv A].
  exists v. split; [apply (loop_more N (Z.of_nat n) z v (Z.to_nat 132)); [lia|exact E]|]. split; [exact Fv|]. eapply Rle_trans; [exact A|]. rewrite <- MX.
  destruct (fin_bound (Cmod (cval z))) as [B|B]; [exact B|]. pose proof (Cmod_ge_0 (cval z)). lra.
Qed.
End T.

(** the hypotheses are met at 3/4, and by a call that returns at 1/2 *)
Example C56_example : libm_ok (Hp := Hp53) (He := He53) (libm_cr 53 1024 Hp53 He53) /\
  (exists z : binary_float 53 1024 * binary_float 53 1024, cfinite z /\ B2R (snd z) = 0 /\ B2R (fst z) = 3 / 4) /\
  exists z v : cpx (B64 (libm_cr 53 1024 Hp53 He53)), cfinite z /\ Cmod (cval z) = / 2 /\ Li (B64 (libm_cr 53 1024 Hp53 He53)) 0 (Z.to_nat 4000) (Z.of_nat 7) z = Val v.
Proof.
  set (L := libm_cr 53 1024 Hp53 He53). assert (HL : libm_ok (Hp := Hp53) (He := He53) L) by exact libm_ok_64.
  destruct (lit34 L) as [F3 V3]. destruct (int_v L 0 ltac:(lia)) as [F0 V0]. destruct (half_v L) as [Fh Vh].
  split; [exact HL|]. split.
  - exists (lit (B64 L) 75 (-2), lit (B64 L) 0 0). split; [split; [exact F3|exact F0]|]. split; [exact V0|exact V3].
  - set (z := ((lit (B64 L) 5 (-1), lit (B64 L) 0 0) : cpx (B64 L))). assert (Fz : cfinite z) by (split; [exact Fh|exact F0]).
    assert (BX : Rabs (B2R (fst z)) <= 3 / 4) by (assert (V : B2R (fst z) = / 2) by exact Vh; rewrite V, Rabs_pos_eq by lra; lra).
    destruct (C56_Li_real L HL 0 (Z.to_nat 4000) 7 z ltac:(lia) ltac:(lia) Fz V0 BX ltac:(lia)) as (v & E & _).
    exists z, v. split; [exact Fz|]. split; [|exact E]. assert (CV : cval z = RtoC (/ 2)) by exact (f_equal2 (fun a b : R => (a, b) : C) Vh V0). rewrite CV, Cmod_R. apply Rabs_pos_eq. lra.
Qed.
