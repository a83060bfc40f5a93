(** * The complex operations of the model in exact arithmetic are the operations of C *)
From Coq Require Import ZArith Reals List Bool Lra Lia Psatz.
From Coquelicot Require Import Coquelicot.
From Verif Require Import Num NumR Spec Eval_R.
Import ListNotations.
Local Open Scope R_scope.

(** the principal argument and logarithm *)
Definition Carg (z : C) : R := atan2R (snd z) (fst z).
Definition Clog (z : C) : C := (ln (Cmod z), Carg z).

Lemma Cmod_sq (z : C) : Cmod z * Cmod z = fst z * fst z + snd z * snd z.
Proof. unfold Cmod. rewrite sqrt_sqrt; [ring|]. pose proof (pow2_ge_0 (fst z)). pose proof (pow2_ge_0 (snd z)). lra. Qed.
Lemma Cmod_alt (z : C) : Cmod z = sqrt (fst z * fst z + snd z * snd z).
Proof. unfold Cmod. f_equal. ring. Qed.
Lemma Cneq_sq (z : C) : z <> RtoC 0 -> 0 < fst z * fst z + snd z * snd z.
Proof.
  intros H. destruct (Req_dec (fst z) 0) as [A|A]; [destruct (Req_dec (snd z) 0) as [B|B]|].
  - elim H. destruct z; cbn in *; subst; reflexivity.
  - nra.
  - nra.
Qed.

Lemma atan_pos x : 0 < x -> 0 < atan x.
Proof. intros H. rewrite <- atan_0. apply atan_increasing. exact H. Qed.

Lemma cos_atan_pos x : cos (atan x) = / sqrt (1 + x * x).
Proof. rewrite cos_atan. unfold Rdiv. rewrite Rmult_1_l. unfold Rsqr. reflexivity. Qed.
Lemma sin_atan_pos x : sin (atan x) = x / sqrt (1 + x * x).
Proof. rewrite sin_atan. unfold Rsqr. reflexivity. Qed.

Lemma sqrt_ratio x y : x <> 0 -> sqrt (1 + y / x * (y / x)) = sqrt (x * x + y * y) / Rabs x.
Proof.
  intros H. rewrite <- (sqrt_Rsqr_abs x). rewrite <- sqrt_div_alt by (unfold Rsqr; nra).
  f_equal. unfold Rsqr. field. exact H.
Qed.
Lemma sq_pos x y : x <> 0 \/ y <> 0 -> 0 < sqrt (x * x + y * y).
Proof. intros H. apply sqrt_lt_R0. destruct H; nra. Qed.

(** polar form: z = |z| (cos (arg z) + i sin (arg z)) *)
Lemma atan2_polar y x : x <> 0 \/ y <> 0 ->
  sqrt (x * x + y * y) * cos (atan2R y x) = x /\ sqrt (x * x + y * y) * sin (atan2R y x) = y.
Proof.
  intros H. pose proof (sq_pos x y H) as Q. unfold atan2R.
  assert (G : forall r, r <> 0 -> x = r -> sqrt (x*x+y*y) * cos (atan (y/x)) = Rabs x /\ sqrt (x*x+y*y) * sin (atan (y/x)) = y * Rabs x / x).
  { intros r Hr ->. rewrite cos_atan_pos, sin_atan_pos, sqrt_ratio by exact Hr.
    assert (Rabs r <> 0) by (apply Rabs_no_R0; exact Hr). split; field; repeat split; try lra; assumption. }
  destruct (Rlt_dec 0 x) as [P|P].
  { destruct (G x) as [A B]; try lra. rewrite Rabs_pos_eq in * by lra. split; [lra|]. rewrite B. field. lra. }
  destruct (Rlt_dec x 0) as [P'|P'].
  { destruct (G x) as [A B]; try lra. rewrite Rabs_left in * by lra.
    destruct (Rle_dec 0 y).
    - rewrite cos_plus, sin_plus, cos_PI, sin_PI. split.
      + rewrite Rmult_0_r, Rminus_0_r. rewrite <- Rmult_assoc, A. ring.
      + rewrite Rmult_0_r, Rplus_0_r. rewrite <- Rmult_assoc, B. field. lra.
    - rewrite cos_minus, sin_minus, cos_PI, sin_PI. split.
      + rewrite Rmult_0_r, Rplus_0_r. rewrite <- Rmult_assoc, A. ring.
      + rewrite Rmult_0_r, Rminus_0_r. rewrite <- Rmult_assoc, B. field. lra. }
  assert (x = 0) by lra. subst x. rewrite Rmult_0_l, Rplus_0_l in *.
  destruct (Rlt_dec 0 y) as [Py|Py].
  { rewrite cos_PI2, sin_PI2, sqrt_square by lra. split; ring. }
  destruct (Rlt_dec y 0) as [Py'|Py'].
  { rewrite cos_neg, sin_neg, cos_PI2, sin_PI2. replace (y * y) with (- y * - y) by ring. rewrite sqrt_square by lra. split; ring. }
  lra.
Qed.
Lemma atan2_range y x : - PI < atan2R y x <= PI.
Proof.
  pose proof PI_RGT_0. pose proof (atan_bound (y / x)) as B. unfold atan2R.
  destruct (Rlt_dec 0 x); [lra|]. destruct (Rlt_dec x 0) as [P|P].
  - destruct (Rle_dec 0 y) as [Y|Y].
    + assert (atan (y/x) <= 0); [|lra]. destruct (Req_dec y 0) as [->|D].
      { unfold Rdiv. rewrite Rmult_0_l, atan_0. lra. }
      assert (0 < atan (- (y / x))); [|rewrite atan_opp in *; lra].
      apply atan_pos. replace (- (y/x)) with (y / - x) by (field; lra). apply Rdiv_lt_0_compat; lra.
    + assert (0 < atan (y/x)); [|lra]. apply atan_pos. replace (y/x) with (- y / - x) by (field; lra). apply Rdiv_lt_0_compat; lra.
  - destruct (Rlt_dec 0 y); [lra|]. destruct (Rlt_dec y 0); lra.
Qed.
Lemma atan2_opp y x : y <> 0 -> atan2R (- y) x = - atan2R y x.
Proof.
  intros H. unfold atan2R. replace (- y / x) with (- (y / x)) by (unfold Rdiv; ring). rewrite atan_opp.
  destruct (Rlt_dec 0 x); [reflexivity|]. destruct (Rlt_dec x 0).
  - destruct (Rle_dec 0 y), (Rle_dec 0 (- y)); lra.
  - destruct (Rlt_dec 0 y), (Rlt_dec 0 (- y)), (Rlt_dec y 0), (Rlt_dec (- y) 0); lra.
Qed.

Lemma Clog_spec (z : C) : z <> RtoC 0 -> is_Clog z (Clog z).
Proof.
  intros H. unfold is_Clog, Clog, Cexp. cbn [fst snd]. split; [|apply atan2_range].
  pose proof (Cneq_sq z H) as Q.
  rewrite exp_ln by (rewrite Cmod_alt; apply sqrt_lt_R0; exact Q).
  rewrite Cmod_alt. unfold Carg.
  destruct (atan2_polar (snd z) (fst z)) as [A B].
  { destruct (Req_dec (fst z) 0) as [E|E]; [right|left; exact E]. intros F. rewrite E, F in Q. lra. }
  rewrite A, B. destruct z; reflexivity.
Qed.
Lemma Cexp_inj a b : Cexp a = Cexp b -> - PI < snd a <= PI -> - PI < snd b <= PI -> a = b.
Proof.
  unfold Cexp. intros E A B. injection E as E1 E2. pose proof PI_RGT_0 as P.
  set (ea := exp (fst a)) in *. set (eb := exp (fst b)) in *.
  assert (Pa : 0 < ea) by apply exp_pos. assert (Pb : 0 < eb) by apply exp_pos.
  assert (M : ea * ea = eb * eb).
  { transitivity ((ea * cos (snd a)) * (ea * cos (snd a)) + (ea * sin (snd a)) * (ea * sin (snd a))).
    - pose proof (sin2_cos2 (snd a)) as K. unfold Rsqr in K. nra.
    - rewrite E1, E2. pose proof (sin2_cos2 (snd b)) as K. unfold Rsqr in K. nra. }
  assert (ee : ea = eb) by nra.
  rewrite ee in E1, E2.
  assert (C1 : cos (snd a) = cos (snd b)) by (apply Rmult_eq_reg_l with eb; lra).
  assert (S1 : sin (snd a) = sin (snd b)) by (apply Rmult_eq_reg_l with eb; lra).
  assert (D : cos (snd a - snd b) = 1).
  { rewrite cos_minus, C1, S1. pose proof (sin2_cos2 (snd b)) as K. unfold Rsqr in K. lra. }
  assert (F : fst a = fst b) by (apply exp_inv; exact ee).
  assert (Sd : snd a = snd b).
  { assert (Hd : sin ((snd a - snd b) / 2) = 0).
    { replace (snd a - snd b) with (2 * ((snd a - snd b) / 2)) in D by field. rewrite cos_2a_sin in D. nra. }
    apply sin_eq_0_0 in Hd. destruct Hd as [k Hk].
    assert (-1 < IZR k < 1) as [K1 K2].
    { split; apply Rmult_lt_reg_r with PI; lra. }
    apply lt_IZR in K1, K2. assert (k = 0%Z) by lia. subst k. lra. }
  destruct a, b; cbn in *; congruence.
Qed.
(** the principal logarithm is unique *)
Lemma Clog_unique (z w : C) : is_Clog z w -> w = Clog z.
Proof.
  intros [E R]. assert (H : z <> RtoC 0).
  { intros ->. unfold Cexp in E. injection E as E1 E2. pose proof (exp_pos (fst w)). pose proof (sin2_cos2 (snd w)) as K. unfold Rsqr in K.
    assert (cos (snd w) = 0) by nra. assert (sin (snd w) = 0) by nra. nra. }
  destruct (Clog_spec z H) as [E' R']. apply Cexp_inj; auto. congruence.
Qed.
Lemma Clog_conj z : snd z <> 0 -> Clog (Cconj z) = Cconj (Clog z).
Proof.
  intros H. unfold Clog, Carg, Cconj. cbn [fst snd]. rewrite atan2_opp by exact H. f_equal.
  f_equal. rewrite !Cmod_alt. cbn [fst snd]. f_equal. ring.
Qed.
Lemma atan2_0_iff y x : atan2R y x = 0 -> y = 0.
Proof.
  intros E. destruct (Req_dec x 0) as [X|X]; [destruct (Req_dec y 0) as [Y|Y]; [exact Y|]|].
  - destruct (atan2_polar y x) as [A B]; [right; exact Y|]. rewrite E, sin_0 in B. lra.
  - destruct (atan2_polar y x) as [A B]; [left; exact X|]. rewrite E, sin_0 in B. lra.
Qed.
Lemma Clog_im_neq z : snd z <> 0 -> snd (Clog z) <> 0.
Proof. intros H E. apply H. apply (atan2_0_iff _ (fst z)). exact E. Qed.

(** ** the model's operations *)
Section E.
Variable e : R.
Notation N := (NumR e).
Definition ofC (z : C) : cpx N := (Some (fst z), Some (snd z)).

Lemma ofC_add z w : cadd N (ofC z) (ofC w) = ofC (Cplus z w). Proof. reflexivity. Qed.
Lemma ofC_sub z w : csub N (ofC z) (ofC w) = ofC (Cminus z w). Proof. reflexivity. Qed.
Lemma ofC_opp z : copp N (ofC z) = ofC (Copp z). Proof. reflexivity. Qed.
Lemma ofC_mul z w : cmul N (ofC z) (ofC w) = ofC (Cmult z w). Proof. reflexivity. Qed.
Lemma ofC_ext z w : fst z = fst w -> snd z = snd w -> ofC z = ofC w.
Proof. unfold ofC. congruence. Qed.
Lemma ofC_mul_rc r z : cmul_rc N (Some r) (ofC z) = ofC (Cmult (RtoC r) z).
Proof. unfold cmul_rc, cmul_cr, cadd_rc, cadd_cr, csub_rc, csub_cr, ofC; cbn; f_equal; f_equal; ring. Qed.
Lemma ofC_mul_cr r z : cmul_cr N (ofC z) (Some r) = ofC (Cmult z (RtoC r)).
Proof. unfold cmul_rc, cmul_cr, cadd_rc, cadd_cr, csub_rc, csub_cr, ofC; cbn; f_equal; f_equal; ring. Qed.
Lemma ofC_add_rc r z : cadd_rc N (Some r) (ofC z) = ofC (Cplus (RtoC r) z).
Proof. unfold cmul_rc, cmul_cr, cadd_rc, cadd_cr, csub_rc, csub_cr, ofC; cbn; f_equal; f_equal; ring. Qed.
Lemma ofC_add_cr r z : cadd_cr N (ofC z) (Some r) = ofC (Cplus z (RtoC r)).
Proof. unfold cmul_rc, cmul_cr, cadd_rc, cadd_cr, csub_rc, csub_cr, ofC; cbn; f_equal; f_equal; ring. Qed.
Lemma ofC_sub_rc r z : csub_rc N (Some r) (ofC z) = ofC (Cminus (RtoC r) z).
Proof. unfold cmul_rc, cmul_cr, cadd_rc, cadd_cr, csub_rc, csub_cr, ofC; cbn; f_equal; f_equal; ring. Qed.
Lemma ofC_sub_cr r z : csub_cr N (ofC z) (Some r) = ofC (Cminus z (RtoC r)).
Proof. unfold cmul_rc, cmul_cr, cadd_rc, cadd_cr, csub_rc, csub_cr, ofC; cbn; f_equal; f_equal; ring. Qed.
Lemma ofC_norm z : cnorm N (ofC z) = Some (Cmod z * Cmod z).
Proof. rewrite Cmod_sq. reflexivity. Qed.
Lemma ofC_div z (w : C) : w <> RtoC 0 -> cdiv N (ofC z) (ofC w) = ofC (Cdiv z w).
Proof.
  intros H. pose proof (Cneq_sq w H) as Q. unfold cdiv, cnorm, ofC. cbn [fst snd add mul sub div NumR lift2].
  rewrite !odiv_some by lra. unfold Cdiv, Cinv, Cmult. cbn [fst snd].
  f_equal; f_equal; cbn [pow]; field; lra.
Qed.
Lemma ofC_div_rc r (w : C) : w <> RtoC 0 -> cdiv_rc N (Some r) (ofC w) = ofC (Cdiv (RtoC r) w).
Proof.
  intros H. pose proof (Cneq_sq w H) as Q. unfold cdiv_rc, cnorm, ofC. cbn [fst snd add mul sub div opp NumR lift2].
  rewrite !odiv_some by lra. cbn [lift1]. unfold Cdiv, Cinv, Cmult. cbn [fst snd RtoC].
  f_equal; f_equal; cbn [pow]; field; lra.
Qed.
Lemma ofC_div_cr z r : r <> 0 -> cdiv_cr N (ofC z) (Some r) = ofC (Cdiv z (RtoC r)).
Proof.
  intros H. unfold cdiv_cr, ofC. cbn [fst snd div NumR]. rewrite !odiv_some by lra.
  unfold Cdiv, Cinv, Cmult. cbn [fst snd RtoC]. f_equal; f_equal; cbn [pow]; field; lra.
Qed.
Lemma ofC_abs z : cabs N (ofC z) = Some (Cmod z).
Proof. rewrite Cmod_alt. reflexivity. Qed.
Lemma ofC_arg z : carg N (ofC z) = Some (Carg z). Proof. reflexivity. Qed.
Lemma ofC_log (z : C) : z <> RtoC 0 -> clog N (ofC z) = ofC (Clog z).
Proof.
  intros H. unfold clog. rewrite ofC_abs, ofC_arg. cbn [nlog NumR].
  rewrite olog_some by (rewrite Cmod_alt; apply sqrt_lt_R0, Cneq_sq, H). reflexivity.
Qed.
Lemma ofC_eqb z w : ceqb N (ofC z) (ofC w) = true <-> z = w.
Proof.
  unfold ceqb, ofC. cbn [fst snd eqb NumR ocmp]. unfold Reqb.
  destruct z as [a b], w as [c d]. cbn [fst snd].
  destruct (Req_EM_T a c), (Req_EM_T b d); cbn; split; intros E; try discriminate; try congruence.
Qed.
Lemma lit_int k : lit N k 0 = Some (IZR k).
Proof. change (lit N k 0) with (Some (litR k 0)). rewrite litR_int. reflexivity. Qed.
End E.

(** the real logarithm seen as a complex one *)
Lemma Clog_pos x : 0 < x -> Clog (RtoC x) = RtoC (ln x).
Proof.
  intros H. unfold Clog, Carg, atan2R, RtoC. cbn [fst snd]. rewrite Cmod_alt. cbn [fst snd].
  destruct (Rlt_dec 0 x); [|contradiction]. replace (0 / x) with 0 by (unfold Rdiv; ring). rewrite atan_0.
  replace (x * x + 0 * 0) with (x * x) by ring. rewrite sqrt_square by lra. reflexivity.
Qed.
Lemma Clog_neg x : x < 0 -> Clog (RtoC x) = (ln (- x), PI).
Proof.
  intros H. unfold Clog, Carg, atan2R, RtoC. cbn [fst snd]. rewrite Cmod_alt. cbn [fst snd].
  destruct (Rlt_dec 0 x); [lra|]. destruct (Rlt_dec x 0); [|contradiction]. destruct (Rle_dec 0 0); [|lra].
  replace (0 / x) with 0 by (unfold Rdiv; ring). rewrite atan_0, Rplus_0_l.
  replace (x * x + 0 * 0) with (- x * - x) by ring. rewrite sqrt_square by lra. reflexivity.
Qed.
