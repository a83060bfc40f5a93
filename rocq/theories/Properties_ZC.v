(** * C51: the complex dilogarithm off the real axis in IEEE double arithmetic, C++, C and Fortran

    For every finite double z with nonzero imaginary part and |z| <= 10^12,
    over any C library that meets [libm_ok] (every elementary function within
    two units in the last place), both components of the computed value are
    finite, and the value differs from Li2(z), the integral along the segment
    from 0 to z that [CLi] defines, by at most

      2^-53 * (400 + 40 |log(1-z)| + 30 ln(1+|z|)^2):

    a fixed number of units in the last place plus a multiple of the size the
    function has near 1 and at infinity.  The one exclusion, Re z = 1 with
    |Im z| < 2^-1000, is where log(1-z) loses its last bits to underflow.
    The bound on |z| is where the contract of hypot and the textbook complex
    division [cdiv] of the model stop to be enough. *)
From Coq Require Import ZArith Reals Bool Lia Lra Psatz List.
From Coquelicot Require Import Coquelicot.
From Flocq Require Import Core IEEE754.BinarySingleNaN.
From Verif Require Import Num NumR NumB NumB_facts Proof_Float Libm Fcalc Cplx Ccalc CLi Model_LiC Model_C Model_F CLi2_f_eval Ieee Li2_ieee Li34_ieee Cieee CLi2_ieee CLi2_ieee2 CvsCpp Properties_J.
Import ListNotations.
Local Open Scope R_scope.

(** the complex number that two doubles stand for *)
Definition cval (z : binary_float 53 1024 * binary_float 53 1024) : C := (B2R (fst z), B2R (snd z)).
Definition cfinite (z : binary_float 53 1024 * binary_float 53 1024) : Prop := is_finite (fst z) = true /\ is_finite (snd z) = true.
(** [li2_close Z V]: V is within the stated bound of Li2(Z) *)
Definition li2_close (Z V : C) : Prop :=
  Cmod (Cminus V (CLi 2 Z)) <= / 2 ^ 53 * (400 + 40 * Cmod (Clog (Cminus (RtoC 1) Z)) + 30 * ln (1 + Cmod Z) ^ 2).

(** the functions, off the real axis, are the branches studied in CLi2_ieee2.v *)
Lemma shape_cpp (N : num) z : eqb N (snd z) (lit N 0 0) = false -> cLi2_d N z = FcodeN N (Qcode N) (Y1 N) (R1 N) (pi6 N (lit N 31415926535897932 (-16))) z.
Proof.
  intros H. unfold cLi2_d, FcodeN. cbv zeta. rewrite H. destruct (ltb N (cnorm N z) (eps N)); [reflexivity|].
  destruct (leb N (fst z) (lit N 5 (-1))); [destruct (ltb N (lit N 1 0) (cnorm N z)); reflexivity|].
  destruct (leb N (cnorm N z) (mul N (lit N 2 0) (fst z))); reflexivity.
Qed.
Lemma shape_c (N : num) z : eqb N (snd z) (lit N 0 0) = false -> c_cli2_d N z = FcodeN N (QcodeC N) (Y1 N) (R1 N) (pi6 N (lit N 31415926535897932 (-16))) z.
Proof.
  intros H. unfold c_cli2_d, FcodeN. cbv zeta. rewrite H. change (add N (mul N (fst z) (fst z)) (mul N (snd z) (snd z))) with (cnorm N z).
  destruct (ltb N (cnorm N z) (eps N)); [reflexivity|].
  destruct (leb N (fst z) (lit N 5 (-1))); [destruct (ltb N (lit N 1 0) (cnorm N z)); reflexivity|].
  destruct (leb N (cnorm N z) (mul N (lit N 2 0) (fst z))); reflexivity.
Qed.
Lemma shape_f (N : num) un z : eqb N (snd z) (lit N 0 0) = false -> f_cdli2 N un z = (FcodeN N (QcodeF N) (Y2 N) (R2 N) (pi6 N (lit N 314159265358979324 (-17))) z, z).
Proof.
  intros H. unfold f_cdli2, FcodeN. cbv zeta. rewrite H. rewrite !f1p_eq. change (add N (mul N (fst z) (fst z)) (mul N (snd z) (snd z))) with (cnorm N z).
  destruct (ltb N (cnorm N z) (eps N)); [reflexivity|].
  destruct (leb N (fst z) (lit N 5 (-1))); [destruct (ltb N (lit N 1 0) (cnorm N z)); reflexivity|].
  destruct (leb N (cnorm N z) (mul N (lit N 2 0) (fst z))); reflexivity.
Qed.
(** both spellings of pi round to the same double *)
Lemma pi_f (L : libm 53 1024) : lit (B64 L) 314159265358979324 (-17) = lit (B64 L) 31415926535897932 (-16).
Proof.
  change (blit 53 1024 Hp53 He53 314159265358979324 (-17) = blit 53 1024 Hp53 He53 31415926535897932 (-16)).
  apply B2SF_inj. vm_compute. reflexivity.
Qed.
Lemma nonreal_test (L : libm 53 1024) z : cfinite z -> B2R (snd z) <> 0 -> eqb (B64 L) (snd z) (lit (B64 L) 0 0) = false.
Proof. intros [_ F] H. destruct (int_v L 0 ltac:(lia)) as [Fz Vz]. rewrite (eqb_R L), Vz by assumption. apply Req_bool_false. exact H. Qed.
Lemma budget_close (L : libm 53 1024) Z z : CM L z (CLi 2 Z) (Fcalc.u 53 * budget Z) -> cfinite z /\ li2_close Z (cval z).
Proof.
  intros [F D]. split; [exact F|]. unfold li2_close. eapply Rle_trans; [exact D|]. right. unfold budget. rewrite u_val. rewrite <- (Rsqr_pow2 (ln (1 + Cmod Z))). reflexivity.
Qed.

Theorem C51_Li2_complex_double (L : libm 53 1024) (z : cpx (B64 L)) : libm_ok (Hp := Hp53) (He := He53) L -> cfinite z -> B2R (snd z) <> 0 -> Cmod (cval z) <= 10 ^ 12 ->
  (B2R (fst z) <> 1 \/ bpow radix2 (-1000) <= Rabs (B2R (snd z))) -> cfinite (cLi2_d (B64 L) z) /\ li2_close (cval z) (cval (cLi2_d (B64 L) z)).
Proof.
  intros HL F H HM H1. rewrite (shape_cpp (B64 L) z (nonreal_test L z F H)). apply (budget_close L). apply Fcode_ok; [exact HL|exact (Q_ok L)|exact (Y1_ok L)|exact (R1_ok L)|exact (pi6_A L)|exact F|exact H|exact HM|exact H1].
Qed.
Theorem C51_cli2_C (L : libm 53 1024) (z : cpx (B64 L)) : libm_ok (Hp := Hp53) (He := He53) L -> cfinite z -> B2R (snd z) <> 0 -> Cmod (cval z) <= 10 ^ 12 ->
  (B2R (fst z) <> 1 \/ bpow radix2 (-1000) <= Rabs (B2R (snd z))) -> cfinite (c_cli2_d (B64 L) z) /\ li2_close (cval z) (cval (c_cli2_d (B64 L) z)).
Proof.
  intros HL F H HM H1. rewrite (shape_c (B64 L) z (nonreal_test L z F H)). apply (budget_close L). apply Fcode_ok; [exact HL|exact (QC_ok L)|exact (Y1_ok L)|exact (R1_ok L)|exact (pi6_A L)|exact F|exact H|exact HM|exact H1].
Qed.
(** the Fortran function: the argument is handed back unchanged, whatever the result variable held before *)
Theorem C51_cdli2_Fortran (L : libm 53 1024) (un z : cpx (B64 L)) : libm_ok (Hp := Hp53) (He := He53) L -> cfinite z -> B2R (snd z) <> 0 -> Cmod (cval z) <= 10 ^ 12 ->
  (B2R (fst z) <> 1 \/ bpow radix2 (-1000) <= Rabs (B2R (snd z))) -> let (w, z') := f_cdli2 (B64 L) un z in z' = z /\ cfinite w /\ li2_close (cval z) (cval w).
Proof.
  intros HL F H HM H1. rewrite (shape_f (B64 L) un z (nonreal_test L z F H)), (pi_f L). split; [reflexivity|]. apply (budget_close L). apply Fcode_ok; [exact HL|exact (QF_ok L)|exact (Y2_ok L)|exact (R2_ok L)|exact (pi6_A L)|exact F|exact H|exact HM|exact H1].
Qed.
(** the C++ and the C library agree to within twice the bound *)
Theorem C51_Cpp_vs_C (L : libm 53 1024) (z : cpx (B64 L)) : libm_ok (Hp := Hp53) (He := He53) L -> cfinite z -> B2R (snd z) <> 0 -> Cmod (cval z) <= 10 ^ 12 ->
  (B2R (fst z) <> 1 \/ bpow radix2 (-1000) <= Rabs (B2R (snd z))) ->
  Cmod (Cminus (cval (cLi2_d (B64 L) z)) (cval (c_cli2_d (B64 L) z))) <= 2 * / 2 ^ 53 * (400 + 40 * Cmod (Clog (Cminus (RtoC 1) (cval z))) + 30 * ln (1 + Cmod (cval z)) ^ 2).
Proof.
  intros HL F H HM H1. destruct (C51_Li2_complex_double L z HL F H HM H1) as [_ A]. destruct (C51_cli2_C L z HL F H HM H1) as [_ B]. unfold li2_close in A, B.
  set (x := cval (cLi2_d (B64 L) z)) in *. set (y := cval (c_cli2_d (B64 L) z)) in *. set (l := CLi 2 (cval z)) in *.
  replace (Cminus x y) with (Cplus (Cminus x l) (Copp (Cminus y l))) by ring. eapply Rle_trans; [apply Cmod_triangle|]. rewrite Cmod_opp. lra.
Qed.
(** the hypotheses are met: a library that rounds correctly, and i, 3 + i/2, 1 + i/2 *)
Example C51_example : libm_ok (Hp := Hp53) (He := He53) (libm_cr 53 1024 Hp53 He53) /\
  forall a, (a = 0 \/ a = 3 \/ a = 1)%Z -> exists z : binary_float 53 1024 * binary_float 53 1024,
    cfinite z /\ B2R (fst z) = IZR a /\ B2R (snd z) = / 2 /\ Cmod (cval z) <= 10 ^ 12 /\ bpow radix2 (-1000) <= Rabs (B2R (snd z)).
Proof.
  split; [exact libm_ok_64|]. intros a Ha. destruct (litZ_exact 53 1024 Hp53 He53 ltac:(lia) a ltac:(lia)) as [V F]. destruct (CvsCpp.half_ok 53 1024 Hp53 He53 ltac:(lia)) as [V2 F2].
  exists (blit 53 1024 Hp53 He53 a 0, blit 53 1024 Hp53 He53 5 (-1)). unfold cfinite, cval. cbn [fst snd]. rewrite V, V2. split; [split; assumption|]. split; [reflexivity|]. split; [reflexivity|]. split.
  - eapply Rle_trans; [apply Cmod_le_sum|]. cbn [fst snd]. rewrite (Rabs_pos_eq (/ 2)) by lra. assert (Rabs (IZR a) <= 3) by (rewrite <- abs_IZR; apply IZR_le; lia). lra.
  - rewrite Rabs_pos_eq by lra. change (/ 2) with (bpow radix2 (-1)). apply bpow_le. lia.
Qed.
