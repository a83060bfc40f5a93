(** * Facts about the floating point instance: literals are correctly rounded,
    fmod is exact, basic operations on finite numbers. *)
From Coq Require Import ZArith Reals Bool Lia Lra Psatz.
From Flocq Require Import Core Round_odd Relative IEEE754.BinarySingleNaN.
From Verif Require Import Num NumR NumB.
Local Open Scope R_scope.

Section F.
Variables prec emax : Z.
Context (Hp : Prec_gt_0 prec) (He : Prec_lt_emax prec emax).
Hypothesis prec1 : (1 < prec)%Z.
Notation fl := (binary_float prec emax).
Notation emin := (3 - emax - prec)%Z.
Notation fexp := (SpecFloat.fexp prec emax).
Notation rnd := (round radix2 fexp ZnearestE).

Lemma fexp_FLT e : fexp e = FLT_exp emin prec e.
Proof. reflexivity. Qed.

Section Sticky.
Variable c : Z.
Let g (e : Z) : Z := Z.min c (fexp e - 2).

Lemma valid_g : Valid_exp g.
Proof.
  pose proof (Hp : (0 < prec)%Z) as Hp'.
  intros k; unfold g, SpecFloat.fexp, SpecFloat.emin. split; [|split]; intros; lia.
Qed.
Lemma NE_g : Exists_NE radix2 g.
Proof.
  pose proof (Hp : (0 < prec)%Z) as Hp'.
  right. intros e; unfold g, SpecFloat.fexp, SpecFloat.emin. split; intros; lia.
Qed.
Lemma round_sticky x :
  (c <= fexp (mag radix2 x) - 2)%Z ->
  rnd (IZR (Zrnd_odd (x * bpow radix2 (- c))) * bpow radix2 c) = rnd x.
Proof.
  intros H.
  pose proof (@round_N_odd radix2 eq_refl fexp g (fun t => negb (Z.even t))
        (FLT_exp_valid emin prec) (exists_NE_FLT radix2 emin prec (or_intror prec1))
        valid_g NE_g ltac:(intros e; unfold g; lia) x) as K.
  rewrite <- K. clear K.
  f_equal. unfold round, F2R, scaled_mantissa, cexp; cbn [Fnum Fexp].
  replace (g (mag radix2 x)) with c by (unfold g; lia). reflexivity.
Qed.
End Sticky.

Lemma litR_0 e : litR 0 e = 0.
Proof. unfold litR. destruct (0 <=? e)%Z; [f_equal; lia | unfold Rdiv; ring]. Qed.

Lemma F2R_IZR m : F2R (Float radix2 m 0) = IZR m.
Proof. unfold F2R; cbn. ring. Qed.

Lemma bnorm_correct m e :
  Rabs (rnd (F2R (Float radix2 m e))) < bpow radix2 emax ->
  B2R (bnorm prec emax Hp He m e) = rnd (F2R (Float radix2 m e)) /\
  is_finite (bnorm prec emax Hp He m e) = true.
Proof.
  intros H. unfold bnorm.
  pose proof (binary_normalize_correct prec emax Hp He mode_NE m e false) as K.
  cbv zeta in K. rewrite Rlt_bool_true in K by exact H. destruct K as (A & B & _). split; auto.
Qed.

(** the odd-rounded truncated quotient *)
Lemma Zrnd_odd_quot a d : (0 <= a)%Z -> (0 < d)%Z ->
  Zrnd_odd (2 * (IZR a / IZR d)) = (2 * (a / d) + (if (a mod d =? 0)%Z then 0 else 1))%Z.
Proof.
  intros Ha Hd.
  pose proof (Z.div_mod a d ltac:(lia)) as E. pose proof (Z.mod_pos_bound a d Hd) as Hr.
  set (q := (a / d)%Z) in *. set (r := (a mod d)%Z) in *.
  assert (Hd' : 0 < IZR d) by (apply IZR_lt; lia).
  assert (Ex : 2 * (IZR a / IZR d) = IZR (2 * q) + 2 * (IZR r / IZR d)).
  { rewrite E, plus_IZR, mult_IZR, mult_IZR. field. lra. }
  rewrite Ex. unfold Zrnd_odd.
  assert (B0 : 0 <= IZR r / IZR d) by (apply Rmult_le_pos; [apply IZR_le; lia | left; apply Rinv_0_lt_compat; lra]).
  assert (B1 : IZR r / IZR d < 1).
  { apply Rmult_lt_reg_r with (IZR d); auto. unfold Rdiv. rewrite Rmult_assoc, Rinv_l, Rmult_1_r, Rmult_1_l by lra. apply IZR_lt; lia. }
  destruct (Z.eqb_spec r 0) as [R0|R0].
  - rewrite R0. unfold Rdiv; rewrite Rmult_0_l, Rmult_0_r, Rplus_0_r, Zfloor_IZR.
    destruct Req_EM_T; [lia| congruence].
  - assert (B2 : 0 < IZR r / IZR d) by (apply Rmult_lt_0_compat; [apply IZR_lt; lia | apply Rinv_0_lt_compat; lra]).
    destruct (Rlt_dec (IZR r / IZR d) (1/2)) as [L|L].
    + assert (F : Zfloor (IZR (2*q) + 2 * (IZR r / IZR d)) = (2*q)%Z).
      { apply Zfloor_imp. rewrite plus_IZR. lra. }
      rewrite F. destruct Req_EM_T as [C|C]; [lra|].
      replace (Z.even (2*q)) with true by (rewrite Z.even_mul; reflexivity).
      apply Zceil_imp. rewrite minus_IZR, plus_IZR. lra.
    + assert (F : Zfloor (IZR (2*q) + 2 * (IZR r / IZR d)) = (2*q+1)%Z).
      { apply Zfloor_imp. rewrite !plus_IZR. lra. }
      rewrite F. destruct Req_EM_T as [C|C]; [reflexivity|].
      replace (Z.even (2*q+1)) with false by (rewrite Z.even_add, Z.even_mul; reflexivity). reflexivity.
Qed.

Lemma Zrnd_odd_opp x : Zrnd_odd (- x) = (- Zrnd_odd x)%Z.
Proof.
  unfold Zrnd_odd. 
  destruct (Req_EM_T x (IZR (Zfloor x))) as [A|A].
  - revert A. generalize (Zfloor x). intros z ->. rewrite <- opp_IZR, Zfloor_IZR.
    destruct Req_EM_T; [reflexivity | congruence].
  - assert (C : Zceil x = (Zfloor x + 1)%Z) by (apply Zceil_floor_neq; congruence).
    assert (F : Zfloor (- x) = (- (Zfloor x + 1))%Z). { rewrite <- C. unfold Zceil. lia. }
    assert (C' : Zceil (- x) = (- Zfloor x)%Z). { unfold Zceil. rewrite Ropp_involutive. reflexivity. }
    rewrite F, C', C. destruct Req_EM_T as [B|B].
    + exfalso. rewrite opp_IZR in B. assert (x = IZR (Zfloor x + 1)) by lra.
      pose proof (Zfloor_ub x). rewrite plus_IZR in H. lra.
    + rewrite Z.even_opp, Z.even_add. destruct (Z.even (Zfloor x)); cbn; reflexivity.
Qed.

Lemma mag_div_lb m d : (m <> 0)%Z -> (0 < d)%Z ->
  (Z.log2 (Z.abs m) - Z.log2 d <= mag radix2 (IZR m / IZR d))%Z.
Proof.
  intros Hm Hd. 
  assert (Hd' : 0 < IZR d) by (apply IZR_lt; lia).
  apply mag_ge_bpow.
  unfold Rdiv. rewrite Rabs_mult, Rabs_inv, (Rabs_pos_eq (IZR d)) by lra. rewrite <- abs_IZR.
  assert (A : bpow radix2 (Z.log2 (Z.abs m)) <= IZR (Z.abs m)).
  { rewrite <- IZR_Zpower by apply Z.log2_nonneg. apply IZR_le. apply Z.log2_spec. lia. }
  assert (B : IZR d <= bpow radix2 (Z.log2 d + 1)).
  { rewrite <- IZR_Zpower by (pose proof (Z.log2_nonneg d); lia). apply IZR_le. apply Z.lt_le_incl. apply Z.log2_spec. lia. }
  apply Rmult_le_reg_r with (IZR d); auto. rewrite Rmult_assoc, Rinv_l, Rmult_1_r by lra.
  apply Rle_trans with (2 := A).
  apply Rle_trans with (bpow radix2 (Z.log2 (Z.abs m) - Z.log2 d - 1) * bpow radix2 (Z.log2 d + 1)).
  - apply Rmult_le_compat_l; [apply bpow_ge_0 | exact B].
  - rewrite <- bpow_plus. apply bpow_le. lia.
Qed.

(** A decimal literal is its exact value, correctly rounded. *)
Theorem blit_correct m e :
  Rabs (rnd (litR m e)) < bpow radix2 emax ->
  B2R (blit prec emax Hp He m e) = rnd (litR m e) /\ is_finite (blit prec emax Hp He m e) = true.
Proof.
  unfold blit, litR. intros H.
  destruct (0 <=? e)%Z eqn:E.
  - rewrite <- F2R_IZR in H |- *. apply bnorm_correct; exact H.
  - apply Z.leb_gt in E.
    set (d := (10 ^ (- e))%Z) in *.
    assert (Hd : (0 < d)%Z) by (apply Z.pow_pos_nonneg; lia).
    cbv zeta.
    set (k := Z.max 0 (Z.log2 d - Z.log2 (Z.abs m) + prec + 4)).
    assert (Key : rnd (F2R (Float radix2 (Z.sgn m * (2 * (Z.abs m * 2 ^ k / d) + (if ((Z.abs m * 2 ^ k) mod d =? 0)%Z then 0 else 1))) (- k - 1)))
                  = rnd (IZR m / IZR d)).
    { destruct (Z.eq_dec m 0) as [M0|M0].
      - subst m. cbn [Z.sgn Z.mul]. rewrite F2R_0. unfold Rdiv. rewrite Rmult_0_l. reflexivity.
      - rewrite <- (round_sticky (-k-1) (IZR m / IZR d)).
        2: { pose proof (mag_div_lb m d M0 Hd) as Q. unfold SpecFloat.fexp, SpecFloat.emin, k. lia. }
        unfold F2R; cbn [Fnum Fexp]. f_equal. f_equal. f_equal.
        rewrite <- Zrnd_odd_quot by (try lia; apply Z.mul_nonneg_nonneg; try lia; apply Z.pow_nonneg; lia).
        assert (Hk : (0 <= k)%Z) by (unfold k; lia).
        assert (X : IZR m / IZR d * bpow radix2 (- (- k - 1)) = IZR (Z.sgn m) * (2 * (IZR (Z.abs m * 2 ^ k) / IZR d))).
        { replace (- (- k - 1))%Z with (k + 1)%Z by lia.
          rewrite bpow_plus. rewrite mult_IZR. change (2 ^ k)%Z with (Zpower radix2 k). rewrite IZR_Zpower by exact Hk.
          replace (IZR m) with (IZR (Z.sgn m) * IZR (Z.abs m)) by (rewrite <- mult_IZR; f_equal; lia).
          change (bpow radix2 1) with 2. unfold Rdiv. ring. }
        rewrite X. set (y := 2 * _).
        destruct (Z.sgn_spec m) as [[_ S]|[[C _]|[_ S]]]; [| lia |]; rewrite S.
        + rewrite Rmult_1_l. lia.
        + replace (IZR (- (1)) * y) with (- y) by (rewrite opp_IZR; ring). rewrite Zrnd_odd_opp. lia. }
    rewrite <- Key in H |- *. apply bnorm_correct. exact H.
Qed.

End F.
