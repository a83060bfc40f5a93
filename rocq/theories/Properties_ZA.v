(** * C49: the real trilogarithm and tetralogarithm in IEEE double

    As C44, for orders 3 and 4, over any C library [L] that meets [libm_ok]:
    rounding errors, rounded constants, the errors of log and log1p, overflow
    and underflow included.  [ReLi n x] is the real part of the polylogarithm
    (Polylog.v); [sizen n x] = min(1,|x|) + ln(1+|x|)^n is |x| near 0 and
    ln^n |x| far out. *)
From Coq Require Import ZArith Reals Bool Lia Lra Psatz List.
From Coquelicot Require Import Rcomplements.
From Interval Require Import Tactic.
From Flocq Require Import Core Relative IEEE754.BinarySingleNaN.
From Verif Require Import Num NumR Eval_R NumB NumB_facts Libm Fcalc Polylog Poly_check Cheb_big Consts Model_LiR Proof_Li2 Proof_Li3 Proof_Li4 Li2_ieee Li34_ieee Li34_core Li3_ieee Li4_ieee.
Import ListNotations.
Local Open Scope R_scope.

Theorem C49_Li3_double (L : libm 53 1024) (x : B64 L) : libm_ok (Hp := Hp53) (He := He53) L -> is_finite x = true ->
  is_finite (Li3_d (B64 L) x) = true /\
  Rabs (B2R (Li3_d (B64 L) x) - ReLi 3 (B2R x)) <= 300 / 2 ^ 53 * (Rmin 1 (Rabs (B2R x)) + ln (1 + Rabs (B2R x)) ^ 3) + 100 * bpow radix2 (-1075).
Proof.
  intros HL F. destruct (Li3_acc L HL x F) as [G A0]. split; [exact G|]. eapply Rle_trans; [exact A0|]. unfold bound3, sizen. rewrite u_val. change eta with (bpow radix2 (-1075)). right. unfold Rdiv. reflexivity.
Qed.
(** order 4: everywhere with 3000, and with 300 away from the arguments that reach the approximation on [1/2,4/5) *)
Theorem C49_Li4_double (L : libm 53 1024) (x : B64 L) : libm_ok (Hp := Hp53) (He := He53) L -> is_finite x = true ->
  is_finite (Li4_d (B64 L) x) = true /\
  Rabs (B2R (Li4_d (B64 L) x) - ReLi 4 (B2R x)) <= 3000 / 2 ^ 53 * (Rmin 1 (Rabs (B2R x)) + ln (1 + Rabs (B2R x)) ^ 4) + 100 * bpow radix2 (-1075).
Proof.
  intros HL F. destruct (Li4_acc L HL x 3000 F ltac:(left; lra)) as [G A0]. split; [exact G|]. eapply Rle_trans; [exact A0|]. unfold bound4, sizen. rewrite u_val. change eta with (bpow radix2 (-1075)). right. unfold Rdiv. reflexivity.
Qed.
Theorem C49_Li4_double_outside (L : libm 53 1024) (x : B64 L) : libm_ok (Hp := Hp53) (He := He53) L -> is_finite x = true -> (B2R x < 1 / 2 \/ 4 / 5 < B2R x <= 6 / 5 \/ 3 <= B2R x) ->
  Rabs (B2R (Li4_d (B64 L) x) - ReLi 4 (B2R x)) <= 300 / 2 ^ 53 * (Rmin 1 (Rabs (B2R x)) + ln (1 + Rabs (B2R x)) ^ 4) + 100 * bpow radix2 (-1075).
Proof.
  intros HL F HR. destruct (Li4_acc L HL x 300 F) as [G A0]. { right. split; [lra|]. unfold Rdiv in HR. rewrite Rmult_1_l in HR. exact HR. }
  eapply Rle_trans; [exact A0|]. unfold bound4, sizen. rewrite u_val. change eta with (bpow radix2 (-1075)). right. unfold Rdiv. reflexivity.
Qed.
(** the larger constant between 1/2 and 4/5 is needed: there the double precision Li4 does lose more than two digits *)
Definition xbad : binary_float 53 1024 := blit 53 1024 Hp53 He53 7871979641863931 (-16).
Lemma xbad_SF : B2SF xbad = SpecFloat.S754_finite false 7090448916353306 (-53). Proof. vm_compute. reflexivity. Qed.
Lemma xbad_v : B2R xbad = 7090448916353306 / 2 ^ 53.
Proof. rewrite <- SF2R_B2SF, xbad_SF. cbn [SF2R cond_Zopp]. unfold F2R. cbn [Fnum Fexp]. rewrite bp2. change (Pos.to_nat 53) with 53%nat. reflexivity. Qed.
Theorem C49_Li4_double_digit_loss (L : libm 53 1024) : exists x : B64 L, is_finite x = true /\ 1 / 2 < B2R x < 4 / 5 /\ 200 / 2 ^ 53 <= Rabs (B2R (Li4_d (B64 L) x) - ReLi 4 (B2R x)).
Proof.
  assert (FX : is_finite xbad = true) by (rewrite <- is_finite_SF_B2SF, xbad_SF; reflexivity). pose proof xbad_v as VX.
  exists xbad. split; [exact FX|]. change (@B2R 53 1024 xbad) with (B2R xbad) in *. rewrite VX. split; [lra|].
  assert (V : B2R (Li4_d (B64 L) xbad) = 7514436700190735 / 2 ^ 53).
  { rewrite <- SF2R_B2SF. replace (B2SF (Li4_d (B64 L) xbad)) with (SpecFloat.S754_finite false 7514436700190735 (-53)) by (symmetry; vm_compute; reflexivity). cbn [SF2R cond_Zopp]. unfold F2R. cbn [Fnum Fexp]. rewrite bp2. change (Pos.to_nat 53) with 53%nat. reflexivity. }
  rewrite V. set (y := 7090448916353306 / 2 ^ 53). assert (Hy : 1 / 2 < y < 4 / 5) by (unfold y; lra).
  destruct (ratio_list_ok _ _ _ _ _ _ _ _ _ _ _ check_4m y ltac:(lra)) as [Q0 U0]. destruct (scale_ratio P4m Q4m 28 y eq_refl eq_refl ltac:(lra)) as [N0 EE].
  destruct (li4_mid_accuracy eps_d y ltac:(lra)) as (v & V1 & V2). rewrite (mid4_eval eps_d y N0) in V1. assert (V1' : plit P4m y / plit Q4m y = v) by (injection V1 as V1; exact V1). clear V1. rename V1' into V1. clear U0 Q0.
  assert (W : Rabs (7514436700190735 / 2 ^ 53 - v) >= 201 / 2 ^ 53).
  { rewrite <- V1, EE. clear V1 V2 N0 EE. unfold y.
    let t := eval vm_compute in (zs_of 28 P4m) in replace (zs_of 28 P4m) with t by (vm_compute; reflexivity). let t := eval vm_compute in (zs_of 28 Q4m) in replace (zs_of 28 Q4m) with t by (vm_compute; reflexivity). cbn [Cheb.pz].
    interval with (i_prec 160). }
  apply Rabs_le_between in V2. unfold Rabs in *. destruct (Rcase_abs (7514436700190735 / 2 ^ 53 - v)); destruct (Rcase_abs (7514436700190735 / 2 ^ 53 - ReLi 4 y)); lra.
Qed.
(** hypotheses are met: a correctly rounded library, and arguments in every branch *)
Example C49_example : libm_ok (Hp := Hp53) (He := He53) (libm_cr 53 1024 Hp53 He53) /\
  forallb (fun '(m, e) => is_finite (blit 53 1024 Hp53 He53 m e)) ((-7, 300)%Z :: (-1, 0)%Z :: (-3, -1)%Z :: (0, 0)%Z :: (1, -300)%Z :: (6, -1)%Z :: (9, -1)%Z :: (1, 0)%Z :: (15, -1)%Z :: (3, 200)%Z :: nil) = true.
Proof. split; [exact libm_ok_64|vm_compute; reflexivity]. Qed.
