(** * C44: the real dilogarithm in IEEE arithmetic

    Everything here is about the floating-point instances, over any C library
    [L] that meets [libm_ok]: rounding errors, the rounding of the table entries
    and of PI, the errors of log and log1p, overflow and underflow included.
    [ReLi 2 x] is the real part of the dilogarithm (Polylog.v). *)
From Coq Require Import ZArith Reals Bool Lia Lra Psatz List.
From Coquelicot Require Import Rcomplements.
From Flocq Require Import Core Relative IEEE754.BinarySingleNaN.
From Verif Require Import Num NumR NumB NumB_facts Libm Fcalc Polylog Model_LiR Li2_ieee Li2_inst.
Local Open Scope R_scope.

(** the size of the dilogarithm: |x| near 0, log^2 |x| far out *)
Definition size2 (x : R) : R := Rmin 1 (Rabs x) + ln (1 + Rabs x) * ln (1 + Rabs x).

Theorem C44_Li2_float (L : libm 24 128) (x : B32 L) : libm_ok (Hp := Hp24) (He := He24) L -> is_finite x = true ->
  is_finite (Li2_f (B32 L) x) = true /\
  Rabs (B2R (Li2_f (B32 L) x) - ReLi 2 (B2R x)) <= 90 / 2 ^ 24 * size2 (B2R x) + 100 * bpow radix2 (-150).
Proof.
  intros HL F. destruct (Li2_acc_f L HL x F) as [G A0]. split; [exact G|]. eapply Rle_trans; [exact A0|]. unfold bound. fold (size2 (B2R x)). rewrite u_f. change (eta 24 128) with (bpow radix2 (-150)).
  right. unfold Rdiv. replace (30 + 60) with 90 by ring. reflexivity.
Qed.
Theorem C44_Li2_double (L : libm 53 1024) (x : B64 L) : libm_ok (Hp := Hp53) (He := He53) L -> is_finite x = true ->
  is_finite (Li2_d (B64 L) x) = true /\
  Rabs (B2R (Li2_d (B64 L) x) - ReLi 2 (B2R x)) <= 232 / 2 ^ 53 * size2 (B2R x) + 100 * bpow radix2 (-1075).
Proof.
  intros HL F. destruct (Li2_acc_d L HL x F) as [G A0]. split; [exact G|]. eapply Rle_trans; [exact A0|]. unfold bound. fold (size2 (B2R x)). rewrite u_d. change (eta 53 1024) with (bpow radix2 (-1075)).
  right. unfold Rdiv. replace (172 + 60) with 232 by ring. reflexivity.
Qed.
Theorem C44_Li2_long_double (L : libm 64 16384) (x : B80 L) : libm_ok (Hp := Hp64) (He := He64) L -> is_finite x = true ->
  is_finite (Li2_l (B80 L) x) = true /\
  Rabs (B2R (Li2_l (B80 L) x) - ReLi 2 (B2R x)) <= 208 / 2 ^ 64 * size2 (B2R x) + 100 * bpow radix2 (-16446).
Proof.
  intros HL F. destruct (Li2_acc_l L HL x F) as [G A0]. split; [exact G|]. eapply Rle_trans; [exact A0|]. unfold bound. fold (size2 (B2R x)). rewrite u_l. change (eta 64 16384) with (bpow radix2 (-16446)).
  right. unfold Rdiv. replace (148 + 60) with 208 by ring. reflexivity.
Qed.
Theorem C44_Li2_quadruple (L : libm 113 16384) (x : B128 L) : libm_ok (Hp := Hp113) (He := He113) L -> is_finite x = true ->
  is_finite (Li2_q (B128 L) x) = true /\
  Rabs (B2R (Li2_q (B128 L) x) - ReLi 2 (B2R x)) <= 3438 / 2 ^ 113 * size2 (B2R x) + 100 * bpow radix2 (-16495).
Proof.
  intros HL F. destruct (Li2_acc_q L HL x F) as [G A0]. split; [exact G|]. eapply Rle_trans; [exact A0|]. unfold bound. fold (size2 (B2R x)). rewrite u_q. change (eta 113 16384) with (bpow radix2 (-16495)).
  right. unfold Rdiv. replace (3378 + 60) with 3438 by ring. reflexivity.
Qed.

(** hypotheses are met: a correctly rounded library, and arguments in every branch *)
Example C44_example : libm_ok (Hp := Hp53) (He := He53) (libm_cr 53 1024 Hp53 He53) /\
  forallb (fun '(m, e) => is_finite (blit 53 1024 Hp53 He53 m e)) ((-7, 300)%Z :: (-1, 0)%Z :: (-3, -1)%Z :: (0, 0)%Z :: (1, -300)%Z :: (9, -1)%Z :: (15, -1)%Z :: (3, 200)%Z :: nil) = true.
Proof. split; [exact libm_ok_64|vm_compute; reflexivity]. Qed.
