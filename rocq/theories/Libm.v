(** * The contract of the C math library, as far as the theorems need it.

    [libm_ok L] is what ISO C Annex F and any usual libm guarantee: special
    values, and results within 2 units in the last place of the exact value.
    Theorems about the IEEE instances that depend on libm take it as an
    explicit hypothesis; [libm_cr] (correctly rounded functions) shows that the
    hypothesis can be met. *)
From Coq Require Import ZArith Reals Bool Lia Lra Psatz.
From Flocq Require Import Core Relative IEEE754.BinarySingleNaN.
From Verif Require Import Num NumR NumB NumB_facts.
Local Open Scope R_scope.

Section L.
Variables prec emax : Z.
Context (Hp : Prec_gt_0 prec) (He : Prec_lt_emax prec emax).
Notation fl := (binary_float prec emax).
Notation emin := (3 - emax - prec)%Z.
Notation fexp := (SpecFloat.fexp prec emax).
Notation rnd := (round radix2 fexp ZnearestE).

(** [v] is a finite float within 2 ulp of the real [r] *)
Definition close (v : fl) (r : R) : Prop :=
  is_finite v = true /\ Rabs (B2R v - r) <= bpow radix2 (2 - prec) * Rabs r + bpow radix2 emin.

Definition fin (x : fl) : Prop := is_finite x = true.
Definition isneg (x : fl) : Prop := Bltb x (B754_zero false) = true.

Record libm_ok (L : libm prec emax) : Prop := {
  (* NaN *)
  log_NaN : m_log _ _ L B754_nan = B754_nan;
  log1p_NaN : m_log1p _ _ L B754_nan = B754_nan;
  sin_NaN : m_sin _ _ L B754_nan = B754_nan;
  cos_NaN : m_cos _ _ L B754_nan = B754_nan;
  exp_NaN : m_exp _ _ L B754_nan = B754_nan;
  (* infinities, poles, domain errors *)
  log_inf : m_log _ _ L (B754_infinity false) = B754_infinity false;
  log_zero : forall s, m_log _ _ L (B754_zero s) = B754_infinity true;
  log_neg : forall x, isneg x -> m_log _ _ L x = B754_nan;
  log1p_inf : m_log1p _ _ L (B754_infinity false) = B754_infinity false;
  sin_inf : forall s, m_sin _ _ L (B754_infinity s) = B754_nan;
  cos_inf : forall s, m_cos _ _ L (B754_infinity s) = B754_nan;
  (* signed zeros *)
  sin_zero : forall s, m_sin _ _ L (B754_zero s) = B754_zero s;
  cos_zero : forall s, m_cos _ _ L (B754_zero s) = bnorm _ _ Hp He 1 0;
  pow_zero : forall s y, fin y -> 0 < B2R y -> exists t, m_pow _ _ L (B754_zero s) y = B754_zero t;
  (* accuracy on finite arguments where the result does not overflow *)
  log_acc : forall x, fin x -> 0 < B2R x -> close (m_log _ _ L x) (ln (B2R x));
  log1p_acc : forall x, fin x -> -1 < B2R x -> close (m_log1p _ _ L x) (ln (1 + B2R x));
  sin_acc : forall x, fin x -> close (m_sin _ _ L x) (sin (B2R x));
  cos_acc : forall x, fin x -> close (m_cos _ _ L x) (cos (B2R x));
  atan_acc : forall x, fin x -> close (m_atan _ _ L x) (atan (B2R x));
  exp_acc : forall x, fin x -> exp (B2R x) <= bpow radix2 (emax - 2) -> close (m_exp _ _ L x) (exp (B2R x));
  exp2_acc : forall x, fin x -> Rpower 2 (B2R x) <= bpow radix2 (emax - 2) -> close (m_exp2 _ _ L x) (Rpower 2 (B2R x));
  pow_acc : forall x y, fin x -> fin y -> 0 < B2R x -> Rpower (B2R x) (B2R y) <= bpow radix2 (emax - 2) ->
     close (m_pow _ _ L x y) (Rpower (B2R x) (B2R y));
  hypot_acc : forall x y, fin x -> fin y -> sqrt (B2R x * B2R x + B2R y * B2R y) <= bpow radix2 (emax - 2) ->
     close (m_hypot _ _ L x y) (sqrt (B2R x * B2R x + B2R y * B2R y));
  atan2_acc : forall y x, fin x -> fin y -> B2R x <> 0 \/ B2R y <> 0 -> B2R y <> 0 \/ 0 < B2R x ->
     close (m_atan2 _ _ L y x) (atan2R (B2R y) (B2R x));
  atan2_neg : forall s x, fin x -> B2R x < 0 ->
     close (m_atan2 _ _ L (B754_zero s) x) (if s then - PI else PI);
  tgamma_acc : forall x n, fin x -> B2R x = INR (S n) -> INR (fact n) <= bpow radix2 (emax - 2) ->
     close (m_tgamma _ _ L x) (INR (fact n));
  tgamma_big : forall x n, fin x -> B2R x = INR (S n) -> bpow radix2 emax <= INR (fact n) ->
     m_tgamma _ _ L x = B754_infinity false
}.

(** ** The correctly rounded library *)
(** round a real to the nearest float (overflow to infinity) *)
Definition Bround (r : R) : fl :=
  binary_normalize prec emax Hp He mode_NE (ZnearestE (scaled_mantissa radix2 fexp r)) (cexp radix2 fexp r) false.

Lemma Bround_correct r : Rabs (rnd r) < bpow radix2 emax ->
  B2R (Bround r) = rnd r /\ is_finite (Bround r) = true.
Proof.
  intros H. unfold Bround.
  set (m := ZnearestE _). set (e := cexp _ _ _).
  assert (E : F2R (Float radix2 m e) = rnd r) by reflexivity.
  pose proof (binary_normalize_correct prec emax Hp He mode_NE m e false) as K. cbv zeta in K.
  rewrite E in K. cbn [round_mode] in K.
  rewrite (round_generic _ _ _ (rnd r)) in K by (apply generic_format_round; [apply (fexp_correct prec emax Hp)|apply valid_rnd_N]).
  rewrite Rlt_bool_true in K by exact H. destruct K as (A & B & _). auto.
Qed.

Lemma rnd_err r : Rabs (rnd r - r) <= bpow radix2 (- prec) * Rabs r + bpow radix2 (emin - 1).
Proof.
  destruct (Rle_or_lt (bpow radix2 (emin + prec - 1)) (Rabs r)) as [A|A].
  - pose proof (relative_error_N_FLT radix2 emin prec Hp (fun t => negb (Z.even t)) r A) as K.
    eapply Rle_trans; [exact K|].
    replace (/2 * bpow radix2 (- prec + 1)) with (bpow radix2 (- prec)).
    + pose proof (bpow_ge_0 radix2 (emin - 1)). lra.
    + rewrite bpow_plus. change (bpow radix2 1) with 2. field.
  - pose proof (bpow_ge_0 radix2 (- prec)) as B. pose proof (Rabs_pos r) as C.
    enough (Rabs (rnd r - r) <= bpow radix2 (emin - 1)) by nra.
    eapply Rle_trans; [apply (error_le_half_ulp radix2 fexp)|].
    rewrite (ulp_FLT_small radix2 emin prec). 
    + replace emin with (emin - 1 + 1)%Z at 1 by lia. rewrite bpow_plus. change (bpow radix2 1) with 2. lra.
    + eapply Rlt_le_trans; [exact A|]. apply bpow_le. lia.
Qed.

Hypothesis prec2 : (2 <= prec)%Z.

Lemma rnd_le r k : (3 - emax < k <= emax)%Z -> Rabs r <= bpow radix2 k -> Rabs (rnd r) <= bpow radix2 k.
Proof.
  pose proof (Hp : (0 < prec)%Z). pose proof (He : (prec < emax)%Z).
  intros Hk H1. apply abs_round_le_generic; auto; try apply (fexp_correct prec emax Hp); try apply valid_rnd_N.
  apply generic_format_bpow. unfold SpecFloat.fexp, SpecFloat.emin. lia.
Qed.

Lemma Bround_close r : Rabs r <= bpow radix2 (emax - 2) -> close (Bround r) r.
Proof.
  pose proof (Hp : (0 < prec)%Z). pose proof (He : (prec < emax)%Z).
  intros A. assert (B : Rabs (rnd r) < bpow radix2 emax).
  { eapply Rle_lt_trans; [apply (rnd_le r (emax - 2)); [lia|exact A]|]. apply bpow_lt. lia. }
  destruct (Bround_correct r B) as [C D]. split; [exact D|]. rewrite C.
  eapply Rle_trans; [apply rnd_err|]. apply Rplus_le_compat.
  - apply Rmult_le_compat_r; [apply Rabs_pos|]. apply bpow_le. lia.
  - apply bpow_le. lia.
Qed.

Definition lift (f : R -> R) (x : fl) : fl := match x with B754_nan | B754_infinity _ => B754_nan | _ => Bround (f (B2R x)) end.
Definition libm_cr : libm prec emax := {|
  m_log := fun x => match x with
     | B754_nan => B754_nan | B754_infinity false => B754_infinity false | B754_infinity true => B754_nan
     | B754_zero _ => B754_infinity true | B754_finite true _ _ _ => B754_nan
     | B754_finite false _ _ _ => Bround (ln (B2R x)) end;
  m_log1p := fun x => match x with
     | B754_nan => B754_nan | B754_infinity false => B754_infinity false | B754_infinity true => B754_nan
     | _ => if Rlt_dec (-1) (B2R x) then Bround (ln (1 + B2R x)) else B754_nan end;
  m_sin := fun x => match x with B754_zero _ => x | _ => lift sin x end;
  m_cos := fun x => match x with B754_zero _ => bnorm _ _ Hp He 1 0 | _ => lift cos x end;
  m_exp := fun x => match x with
     | B754_nan => B754_nan | B754_infinity false => B754_infinity false | B754_infinity true => B754_zero false
     | _ => Bround (exp (B2R x)) end;
  m_pow := fun x y => match x with B754_zero _ => B754_zero false | _ => Bround (Rpower (B2R x) (B2R y)) end;
  m_hypot := fun x y => Bround (sqrt (B2R x * B2R x + B2R y * B2R y));
  m_atan2 := fun y x => match y with
     | B754_zero s => if Rlt_dec (B2R x) 0 then Bround (if s then - PI else PI) else Bround (atan2R (B2R y) (B2R x))
     | _ => Bround (atan2R (B2R y) (B2R x)) end;
  m_atan := lift atan;
  m_exp2 := lift (Rpower 2);
  m_tgamma := fun x => if Rle_dec (bpow radix2 emax) (INR (fact (Z.to_nat (Zfloor (B2R x) - 1)))) then B754_infinity false
                       else Bround (INR (fact (Z.to_nat (Zfloor (B2R x) - 1))))
|}.

Hypothesis emax5 : (6 <= emax)%Z.
Lemma bpow_big : 16 <= bpow radix2 (emax - 2).
Proof. apply Rle_trans with (bpow radix2 4); [cbn; lra|]. apply bpow_le. lia. Qed.

Lemma ln_le_sub1 x : 0 < x -> ln x <= x - 1.
Proof.
  intros H. destruct (Req_EM_T x 1) as [->|D]. { rewrite ln_1. lra. }
  pose proof (exp_ineq1 (ln x)) as K. rewrite exp_ln in K by auto.
  enough (ln x <> 0) by (specialize (K H0); lra). intros E. apply D. rewrite <- (exp_ln x H), E. apply exp_0.
Qed.
Lemma two_pow_ge n : IZR n + 1 <= bpow radix2 n \/ (n < 0)%Z.
Proof.
  destruct (Z.lt_ge_cases n 0); [auto|]. left. rewrite <- IZR_Zpower by lia. rewrite <- plus_IZR. apply IZR_le.
  pose proof (Z.pow_gt_lin_r 2 n). cbn [radix_val radix2]. lia.
Qed.

(** the logarithm of a float is at most the exponent range *)
Lemma ln_float_bound x : fin x -> 0 < B2R x -> Rabs (ln (B2R x)) <= bpow radix2 (emax - 2).
Proof.
  pose proof (Hp : (0 < prec)%Z) as P0. pose proof (He : (prec < emax)%Z) as P1.
  intros F P.
  assert (U : B2R x < bpow radix2 emax) by (eapply Rle_lt_trans; [apply Rle_abs|]; apply abs_B2R_lt_emax).
  assert (LB : bpow radix2 emin <= B2R x).
  { pose proof (generic_format_ge_bpow radix2 fexp emin) as Q. apply Q; auto.
    - intros e. unfold SpecFloat.fexp, SpecFloat.emin. lia.
    - apply generic_format_B2R. }
  assert (l2 : 0 < ln 2 <= 1).
  { split; [rewrite <- ln_1; apply ln_increasing; lra|]. pose proof (ln_le_sub1 2). lra. }
  assert (LBP : forall k, ln (bpow radix2 k) = IZR k * ln 2) by (intros k; rewrite bpow_powerRZ, powerRZ_Rpower by (cbn; lra); unfold Rpower; rewrite ln_exp; cbn; ring).
  assert (lnU : ln (B2R x) <= IZR emax).
  { apply Rle_trans with (ln (bpow radix2 emax)); [left; apply ln_increasing; auto|]. rewrite LBP.
    assert (0 < IZR emax) by (apply IZR_lt; lia). nra. }
  assert (lnL : - IZR (emax + prec) <= ln (B2R x)).
  { apply Rle_trans with (ln (bpow radix2 emin)).
    - rewrite LBP. rewrite <- opp_IZR. 
      assert (IZR emin <= 0) by (apply IZR_le; lia).
      apply Rle_trans with (IZR emin); [apply IZR_le; lia|]. nra.
    - destruct LB as [LB| ->]; [left; apply ln_increasing; auto; apply bpow_gt_0 | lra]. }
  assert (K : IZR (emax + prec) <= bpow radix2 (emax - 2) ).
  { apply Rle_trans with (IZR (2 * emax - 1)); [apply IZR_le; lia|].
    rewrite <- IZR_Zpower by lia. apply IZR_le. 
    replace (emax - 2)%Z with (Z.of_nat (Z.to_nat (emax - 6)) + 4)%Z by lia.
    replace (2 * emax - 1)%Z with (2 * Z.of_nat (Z.to_nat (emax - 6)) + 11)%Z by lia.
    generalize (Z.to_nat (emax - 6)). intros n. induction n as [|n IH]; [cbn; lia|].
    rewrite Nat2Z.inj_succ. replace (Z.succ (Z.of_nat n) + 4)%Z with (Z.succ (Z.of_nat n + 4)) by lia.
    rewrite Z.pow_succ_r by lia. cbn [radix_val radix2] in *. lia. }
  assert (IZR emax <= IZR (emax + prec)) by (apply IZR_le; lia).
  apply Rabs_le. lra.
Qed.

Lemma B2R_lt_emax x : Rabs (B2R (x : fl)) < bpow radix2 emax. Proof. apply abs_B2R_lt_emax. Qed.

Lemma PI_16 : PI <= 4. Proof. apply PI_4. Qed.

Lemma fin_match (x : fl) (f : R -> R) : fin x -> lift f x = Bround (f (B2R x)).
Proof. destruct x; unfold fin; cbn; intros; try discriminate; reflexivity. Qed.

Lemma atan2_bound y x : Rabs (atan2R y x) <= 16.
Proof.
  unfold atan2R. pose proof PI_4. pose proof PI_RGT_0.
  pose proof (atan_bound (y/x)).
  repeat destruct Rlt_dec; try destruct Rle_dec; apply Rabs_le; lra.
Qed.

Lemma ln1p_float_bound x : fin x -> -1 < B2R x -> Rabs (ln (1 + B2R x)) <= bpow radix2 (emax - 2).
Proof.
  pose proof (Hp : (0 < prec)%Z) as P0. pose proof (He : (prec < emax)%Z) as P1.
  intros F P.
  assert (l2 : 0 < ln 2 <= 1).
  { split; [rewrite <- ln_1; apply ln_increasing; lra|]. pose proof (ln_le_sub1 2). lra. }
  assert (LBP : forall k, ln (bpow radix2 k) = IZR k * ln 2) by (intros k; rewrite bpow_powerRZ, powerRZ_Rpower by (cbn; lra); unfold Rpower; rewrite ln_exp; cbn; ring).
  assert (U : B2R x < bpow radix2 emax) by (eapply Rle_lt_trans; [apply Rle_abs|]; apply abs_B2R_lt_emax).
  assert (ONE : 1 <= bpow radix2 emax) by (change 1 with (bpow radix2 0); apply bpow_le; lia).
  assert (lnU : ln (1 + B2R x) <= IZR (emax + 1)).
  { apply Rle_trans with (ln (bpow radix2 (emax + 1))); [left; apply ln_increasing; [lra|]|].
    - rewrite bpow_plus. change (bpow radix2 1) with 2. lra.
    - rewrite LBP. assert (0 < IZR (emax+1)) by (apply IZR_lt; lia). nra. }
  (* lower bound: x >= pred-like distance from -1 *)
  assert (LB : bpow radix2 (- prec) <= 1 + B2R x).
  { assert (G1 : generic_format radix2 fexp (-1)).
    { change (-1) with (- (1)). apply generic_format_opp. change 1 with (bpow radix2 0). apply generic_format_bpow. unfold SpecFloat.fexp, SpecFloat.emin. lia. }
    destruct (Rle_or_lt 0 (B2R x)) as [Z0|N0].
    { apply Rle_trans with 1; [|lra]. change 1 with (bpow radix2 0). apply bpow_le. lia. }
    pose proof (succ_le_lt radix2 fexp (-1) (B2R x) G1 (generic_format_B2R prec emax x) P) as S.
    change (-1) with (- (1)) in S. rewrite succ_opp in S.
    change 1 with (bpow radix2 0) in S at 1. rewrite pred_bpow in S.
    assert (fexp 0 = (- prec)%Z) as FE by (unfold SpecFloat.fexp, SpecFloat.emin; lia). rewrite FE in S.
    change (bpow radix2 0) with 1 in S. lra. }
  assert (lnL : - IZR prec <= ln (1 + B2R x)).
  { apply Rle_trans with (ln (bpow radix2 (- prec))).
    - rewrite LBP, opp_IZR. assert (0 < IZR prec) by (apply IZR_lt; lia). nra.
    - destruct LB as [LB| <-]; [left; apply ln_increasing; auto; apply bpow_gt_0 | lra]. }
  assert (K : IZR (emax + prec) <= bpow radix2 (emax - 2) ).
  { apply Rle_trans with (IZR (2 * emax - 1)); [apply IZR_le; lia|].
    rewrite <- IZR_Zpower by lia. apply IZR_le. 
    replace (emax - 2)%Z with (Z.of_nat (Z.to_nat (emax - 6)) + 4)%Z by lia.
    replace (2 * emax - 1)%Z with (2 * Z.of_nat (Z.to_nat (emax - 6)) + 11)%Z by lia.
    generalize (Z.to_nat (emax - 6)). intros n. induction n as [|n IH]; [cbn; lia|].
    rewrite Nat2Z.inj_succ. replace (Z.succ (Z.of_nat n) + 4)%Z with (Z.succ (Z.of_nat n + 4)) by lia.
    rewrite Z.pow_succ_r by lia. cbn [radix_val radix2] in *. lia. }
  assert (IZR (emax + 1) <= IZR (emax + prec)) by (apply IZR_le; lia).
  assert (IZR prec <= IZR (emax + prec)) by (apply IZR_le; lia).
  apply Rabs_le. lra.
Qed.

Lemma one_exact : B2R (bnorm prec emax Hp He 1 0) = 1 /\ is_finite (bnorm prec emax Hp He 1 0) = true.
Proof.
  pose proof (Hp : (0 < prec)%Z) as P0. pose proof (He : (prec < emax)%Z) as P1.
  assert (G : generic_format radix2 fexp 1).
  { change 1 with (bpow radix2 0). apply generic_format_bpow. unfold SpecFloat.fexp, SpecFloat.emin. lia. }
  assert (R1 : rnd 1 = 1) by (apply round_generic; [apply valid_rnd_N|exact G]).
  destruct (bnorm_correct prec emax Hp He 1 0) as [A B]; rewrite ?F2R_IZR, ?R1 in *; auto.
  rewrite Rabs_R1. change 1 with (bpow radix2 0). apply bpow_lt. lia.
Qed.
Theorem libm_cr_ok : libm_ok libm_cr.
Proof.
  pose proof bpow_big as BB. pose proof PI_4 as P4. pose proof PI_RGT_0 as P0.
  constructor; cbn [m_log m_log1p m_sin m_cos m_exp m_pow m_hypot m_atan2 m_atan m_exp2 m_tgamma libm_cr]; try reflexivity.
  - intros x H. destruct x as [s|s| |s m e B]; try reflexivity.
    + destruct s; discriminate H.
    + destruct s; [reflexivity|discriminate H].
    + destruct s; [reflexivity|]. discriminate H.
  - intros s y F P. exists false. reflexivity.
  - intros x F P. destruct x as [s|s| |s m e B]; try discriminate F.
    + cbn in P. lra.
    + destruct s.
      * exfalso. cbn in P. pose proof (F2R_le_0 radix2 (Float radix2 (Zneg m) e) ltac:(cbn; lia)). cbn in H. unfold F2R in *. cbn in *. lra.
      * apply Bround_close. apply ln_float_bound; auto.
  - intros x F P. assert (close (if Rlt_dec (-1) (B2R x) then Bround (ln (1 + B2R x)) else B754_nan) (ln (1 + B2R x))) as K.
    { destruct Rlt_dec; [|contradiction]. apply Bround_close. apply ln1p_float_bound; auto. }
    destruct x; try discriminate F; exact K.
  - intros x F. destruct x as [s|s| |s m e B]; try discriminate F.
    + split; [reflexivity|]. cbn [B2R]. rewrite sin_0, Rminus_0_r, Rabs_R0. pose proof (bpow_ge_0 radix2 emin). lra.
    + rewrite fin_match by auto. apply Bround_close. match goal with |- Rabs (sin ?u) <= _ => pose proof (SIN_bound u) end. apply Rabs_le. lra.
  - intros x F. destruct x as [s|s| |s m e B]; try discriminate F.
    + destruct one_exact as [O1 O2]. split; [exact O2|]. rewrite O1. cbn [B2R]. rewrite cos_0, Rminus_eq_0, Rabs_R0, Rabs_R1.
      pose proof (bpow_ge_0 radix2 emin). pose proof (bpow_ge_0 radix2 (2 - prec)). lra.
    + rewrite fin_match by auto. apply Bround_close. match goal with |- Rabs (cos ?u) <= _ => pose proof (COS_bound u) end. apply Rabs_le. lra.
  - intros x F. rewrite fin_match by auto. apply Bround_close. pose proof (atan_bound (B2R x)). apply Rabs_le. lra.
  - intros x F P. assert (K : close (Bround (exp (B2R x))) (exp (B2R x))).
    { apply Bround_close. rewrite Rabs_pos_eq; [auto|left; apply exp_pos]. }
    destruct x; try discriminate F; exact K.
  - intros x F P. rewrite fin_match by auto. apply Bround_close. rewrite Rabs_pos_eq; [auto|left; apply exp_pos].
  - intros x y F G P Q. destruct x as [s|s| |s m e B]; [cbn in P; lra| | |]; (apply Bround_close; rewrite Rabs_pos_eq; [auto|left; apply exp_pos]).
  - intros x y F G Q. apply Bround_close. rewrite Rabs_pos_eq; [auto|apply sqrt_pos].
  - intros y x F G D E. assert (K : close (Bround (atan2R (B2R y) (B2R x))) (atan2R (B2R y) (B2R x))).
    { apply Bround_close. pose proof (atan2_bound (B2R y) (B2R x)). lra. }
    destruct y; try exact K. cbn [B2R] in *. destruct Rlt_dec; [|exact K]. lra.
  - intros s x F N. destruct Rlt_dec; [|contradiction]. apply Bround_close. destruct s; apply Rabs_le; lra.
  - intros x n F E Q.
    assert (Z.to_nat (Zfloor (B2R x) - 1) = n) as ->.
    { rewrite E, INR_IZR_INZ, Zfloor_IZR. lia. }
    assert (bpow radix2 (emax - 2) < bpow radix2 emax) by (apply bpow_lt; lia).
    destruct Rle_dec; [lra|]. apply Bround_close. rewrite Rabs_pos_eq; [auto|apply pos_INR].
  - intros x n F E Q.
    assert (Z.to_nat (Zfloor (B2R x) - 1) = n) as ->.
    { rewrite E, INR_IZR_INZ, Zfloor_IZR. lia. }
    destruct Rle_dec; [reflexivity|lra].
Qed.
End L.

Arguments libm_ok {prec emax Hp He} L.
Arguments close {prec emax} v r.

(** the contract can be met for double, float, x87 and quadruple *)
Theorem libm_ok_64 : libm_ok (libm_cr 53 1024 Hp53 He53). Proof. apply libm_cr_ok; lia. Qed.
Theorem libm_ok_32 : libm_ok (libm_cr 24 128 Hp24 He24). Proof. apply libm_cr_ok; lia. Qed.
Theorem libm_ok_80 : libm_ok (libm_cr 64 16384 Hp64 He64). Proof. apply libm_cr_ok; lia. Qed.
Theorem libm_ok_128 : libm_ok (libm_cr 113 16384 Hp113 He113). Proof. apply libm_cr_ok; lia. Qed.
