(** * C53: a bounded argument on which Li(7,z) runs for more than 2^46 passes

    The stopping rule of the power series of Li(n,z), n >= 7, |z| <= 3/4, is
    that a pass leaves the partial sum unchanged, in both components.  Beside
    the real axis the imaginary part of the term becomes subnormal, and there
    rounding to nearest turns "multiply by a factor between 1/2 and 1" into the
    identity: the term stops decreasing at the smallest double 2^-1074, while the
    imaginary part of the partial sum, which is subnormal too, takes every such
    term exactly.  At z = 3/4 + 2^-1028 i, with any C library that
    meets [libm_ok], the loop is still running after 2^46 = 7*10^13 passes, each
    of them with one call of pow: weeks of computing time for one value. *)
From Coq Require Import ZArith Reals Bool Lia Lra Psatz List.
From Coquelicot Require Import Coquelicot.
From Flocq Require Import Core IEEE754.BinarySingleNaN.
From Verif Require Import Outcome Num NumR NumB NumB_facts Proof_Float Libm Fcalc Cplx Ccalc CLi Model_LiC Model_Li Ieee Li34_ieee Cieee CvsCpp CLi2_ieee CSeries_ieee Properties_J Properties_ZC Properties_ZD.
Import ListNotations.
Local Open Scope R_scope.
Local Notation is_finite := BinarySingleNaN.is_finite.

(** the dispatch of order 7 inside the disc, for any arithmetic *)
Lemma disp_7 (N : num) d fuel (z : cpx N) :
  (isnan N (fst z) || isnan N (snd z))%bool = false -> (isinf N (fst z) || isinf N (snd z))%bool = false ->
  (eqb N (fst z) (lit N 0 0) && eqb N (snd z) (lit N 0 0))%bool = false -> (eqb N (fst z) (lit N 1 0) && eqb N (snd z) (lit N 0 0))%bool = false ->
  (eqb N (fst z) (lit N (-1) 0) && eqb N (snd z) (lit N 0 0))%bool = false ->
  leb N (cnorm N z) (mul N (lit N 75 (-2)) (lit N 75 (-2))) = true -> Li N d fuel 7 z = Li_series N fuel 7 z.
Proof. intros H1 H2 H3 H4 H5 H6. destruct d; cbn [Li]; cbv zeta; rewrite H1, H2, H3, H4, H5; cbn [Z.ltb Z.compare Z.eqb Pos.eqb Pos.compare Pos.compare_cont]; rewrite H6; reflexivity. Qed.

Section T.
Variable L : libm 53 1024.
Hypothesis HL : libm_ok (Hp := Hp53) (He := He53) L.
Notation N := (B64 L).
Notation rnd := (round radix2 (SpecFloat.fexp 53 1024) ZnearestE).
Lemma lit34 : is_finite (lit N 75 (-2)) = true /\ B2R (lit N 75 (-2)) = 3 / 4.
Proof.
  assert (EE : B2SF (blit 53 1024 Hp53 He53 75 (-2)) = SpecFloat.S754_finite false 6755399441055744 (- 53)) by (vm_compute; reflexivity).
  change (lit N 75 (-2)) with (blit 53 1024 Hp53 He53 75 (-2)). split; [rewrite <- is_finite_SF_B2SF, EE; reflexivity|]. rewrite <- SF2R_B2SF, EE. cbn [SF2R cond_Zopp]. unfold F2R. cbn [Fnum Fexp]. rewrite Fcalc.bp2. change (Pos.to_nat 53) with 53%nat. lra.
Qed.
(** the squared modulus rounds to that of 3/4 *)
Lemma norm_le (z : cpx N) : cfinite z -> B2R (fst z) = 3 / 4 -> B2R (snd z) = yy -> leb N (cnorm N z) (mul N (lit N 75 (-2)) (lit N 75 (-2))) = true.
Proof.
  intros [Fx Fy] Vx Vy. destruct lit34 as [Fl Vl]. destruct facts as (YS & YY & _ & _). pose proof w_pos as W. pose proof w_yy as WY.
  destruct (mul_b L (fst z) (fst z) Fx Fx) as [F1 V1]; [apply big_2; rewrite Vx, Rabs_pos_eq; lra|]. destruct (mul_b L (snd z) (snd z) Fy Fy) as [F2 V2]; [apply big_2; rewrite Vy, Rabs_pos_eq; nra|].
  destruct (mul_b L (lit N 75 (-2)) (lit N 75 (-2)) Fl Fl) as [F3 V3]; [apply big_2; rewrite Vl, Rabs_pos_eq; lra|].
  rewrite Vy, rnd_tiny in V2 by (split; [apply Rmult_le_pos; lra|assert (0 <= yy * yy) by (apply Rmult_le_pos; lra); lra]). rewrite Vx in V1. rewrite Vl in V3. rewrite <- V1 in V3.
  assert (B1 : Rabs (B2R (mul N (fst z) (fst z))) <= 1). { rewrite V1. apply (abs_round_le_generic radix2 (SpecFloat.fexp 53 1024)); [apply valid_rnd_N|change 1 with (bpow radix2 0); apply fmt_b; lia|rewrite Rabs_pos_eq; lra]. }
  destruct (add_b L (mul N (fst z) (fst z)) (mul N (snd z) (snd z)) F1 F2) as [F4 V4]; [apply big_2; rewrite V2, Rplus_0_r; lra|].
  rewrite V2, Rplus_0_r, rid in V4 by apply generic_format_B2R.
  unfold cnorm. rewrite (leb_R L) by assumption. apply Rle_bool_true. rewrite V4, V3. lra.
Qed.
Lemma inv0 (z : cpx N) : cfinite z -> B2R (fst z) = 3 / 4 -> B2R (snd z) = yy -> inv L 0 (czero N) z.
Proof.
  intros F Vx Vy. destruct (int_v L 0 ltac:(lia)) as [F0 V0]. pose proof w_pos as W. pose proof w_yy as WY. unfold czero. constructor; cbn [fst snd]; rewrite ?V0, ?Vx, ?Vy.
  - destruct F. tauto.
  - lra.
  - apply Rle_refl.
  - lra.
  - lra.
  - lra.
Qed.

Theorem C53_Li7_keeps_running (d fuel : nat) (z : cpx N) : cfinite z -> cval z = (3 / 4, bpow radix2 (-1028)) -> (Z.of_nat fuel <= 2 ^ 46)%Z -> Li N d fuel 7 z = NoFuel.
Proof.
  intros F V Hf. assert (Vx : B2R (fst z) = 3 / 4) by (apply (f_equal fst) in V; exact V). assert (Vy : B2R (snd z) = yy) by (apply (f_equal snd) in V; exact V).
  pose proof w_pos as W. pose proof w_yy as WY. destruct (fin_nan L z F) as [Nn Ni].
  assert (NI : forall k, cval z <> RtoC (IZR k)) by (intros k E; assert (E2 : B2R (snd z) = 0) by (apply (f_equal snd) in E; exact E); assert (E3 : yy = 0) by (rewrite <- Vy; exact E2); lra).
  destruct (at_int L z 0 F ltac:(lia)) as [[T0 V0]|[T0 V0]]; [destruct (NI _ V0)|]. destruct (at_int L z 1 F ltac:(lia)) as [[T1 V1]|[T1 V1]]; [destruct (NI _ V1)|]. destruct (at_int L z (-1) F ltac:(lia)) as [[T2 V2]|[T2 V2]]; [destruct (NI _ V2)|].
  rewrite (disp_7 N d fuel z Nn Ni T0 T1 T2 (norm_le z F Vx Vy)). unfold Li_series. apply (run_on L HL z); [exact F|split; assumption|lia|lia|apply inv0; assumption].
Qed.

(** a call that returns has made more than 2^46 passes *)
Theorem C53_Li7_passes (d fuel : nat) (z w : cpx N) : cfinite z -> cval z = (3 / 4, bpow radix2 (-1028)) -> Li N d fuel 7 z = Val w -> (2 ^ 46 < Z.of_nat fuel)%Z.
Proof.
  intros F V E. destruct (Z_le_gt_dec (Z.of_nat fuel) (2 ^ 46)) as [H|H]; [|lia]. rewrite (C53_Li7_keeps_running d fuel z F V H) in E. discriminate.
Qed.
End T.

(** the hypotheses are met: the library that rounds correctly, and the argument itself *)
Example C53_example : libm_ok (Hp := Hp53) (He := He53) (libm_cr 53 1024 Hp53 He53) /\
  exists z : binary_float 53 1024 * binary_float 53 1024, cfinite z /\ cval z = (3 / 4, bpow radix2 (-1028)).
Proof.
  split; [exact libm_ok_64|]. destruct (lit34 (libm_cr 53 1024 Hp53 He53)) as [F1 V1].
  destruct (bnorm_correct 53 1024 Hp53 He53 1 (-1028)) as [V2 F2].
  { rewrite F2R_bpow, rid by (apply fmt_b; lia). rewrite Rabs_pos_eq by apply bpow_ge_0. apply bpow_lt. lia. }
  rewrite F2R_bpow, rid in V2 by (apply fmt_b; lia).
  exists (lit (B64 (libm_cr 53 1024 Hp53 He53)) 75 (-2), bnorm 53 1024 Hp53 He53 1 (-1028)). split; [split; [exact F1|exact F2]|]. unfold cval. cbn [fst snd]. f_equal; [exact V1|exact V2].
Qed.
