(** * Floating point building blocks on binary64 (and generic precision) *)
From Coq Require Import ZArith Reals List Bool Lia Lra Psatz.
From Flocq Require Import Core Relative Sterbenz IEEE754.BinarySingleNaN.
From Verif Require Import Num Outcome NumR NumB NumB_facts Libm Model_Cl Proof_Int.
Local Open Scope R_scope.

Section F.
Variables prec emax : Z.
Context (Hp : Prec_gt_0 prec) (He : Prec_lt_emax prec emax).
Hypothesis prec1 : (1 < prec)%Z.
Notation fl := (binary_float prec emax).
Notation emin := (3 - emax - prec)%Z.
Notation fexp := (SpecFloat.fexp prec emax).
Notation rnd := (round radix2 fexp ZnearestE).

Lemma valid_fexp : Valid_exp fexp. Proof. apply (fexp_correct prec emax Hp). Qed.

Lemma bceil_correct (x : fl) : is_finite x = true -> bceil_to_Z prec emax x = Some (Zceil (B2R x)).
Proof.
  destruct x as [s|s| |s m e B]; intros F; try discriminate F.
  - cbn. f_equal. symmetry. apply (Zceil_IZR 0).
  - clear F. cbn [bceil_to_Z]. f_equal.
    assert (EQ : forall v : Z, (if 0 <=? e then v * 2 ^ e else - (- v / 2 ^ (- e)))%Z = Zceil (F2R (Float radix2 v e))).
    { intros v. destruct (Z.leb_spec 0 e) as [E|E].
      - unfold F2R; cbn [Fnum Fexp]. rewrite <- IZR_Zpower by exact E. rewrite <- mult_IZR, Zceil_IZR. reflexivity.
      - unfold Zceil. f_equal. unfold F2R; cbn [Fnum Fexp].
        replace e with (- (- e))%Z at 2 by lia. rewrite bpow_opp, <- IZR_Zpower by lia.
        rewrite Ropp_mult_distr_l, <- opp_IZR. fold (IZR (- v) / IZR (Zpower radix2 (- e))).
        rewrite Zfloor_div; [reflexivity|]. intros C. 
        assert (0 < Zpower radix2 (- e))%Z by (apply (Zpower_gt_0 radix2); lia). lia. }
    rewrite EQ. destruct s; reflexivity.
Qed.

Lemma ofZ_correct z : (Z.abs z <= 2 ^ (emax - 1))%Z ->
  B2R (bnorm prec emax Hp He z 0) = rnd (IZR z) /\ is_finite (bnorm prec emax Hp He z 0) = true.
Proof.
  pose proof (Hp : (0 < prec)%Z). pose proof (He : (prec < emax)%Z).
  intros H1. rewrite <- (F2R_IZR z). apply bnorm_correct; auto.
  rewrite F2R_IZR. apply Rle_lt_trans with (bpow radix2 (emax - 1)); [|apply bpow_lt; lia].
  apply abs_round_le_generic; try apply valid_rnd_N.
  - apply valid_fexp.
  - apply generic_format_bpow. unfold SpecFloat.fexp, SpecFloat.emin. lia.
  - rewrite <- abs_IZR. rewrite <- IZR_Zpower by lia. apply IZR_le. exact H1.
Qed.

Lemma format_bpow k : (emin <= k - prec + 1 )%Z -> (emin <= k)%Z -> generic_format radix2 fexp (bpow radix2 k).
Proof. pose proof (Hp : (0 < prec)%Z). intros A B. apply generic_format_bpow. unfold SpecFloat.fexp, SpecFloat.emin. lia. Qed.

Lemma format_IZR z : (Z.abs z <= 2 ^ prec)%Z -> generic_format radix2 fexp (IZR z).
Proof.
  pose proof (Hp : (0 < prec)%Z). pose proof (He : (prec < emax)%Z).
  intros H1.
  destruct (Z.eq_dec (Z.abs z) (2 ^ prec)) as [E|E].
  - assert (G : generic_format radix2 fexp (bpow radix2 prec)).
    { apply generic_format_bpow. unfold SpecFloat.fexp, SpecFloat.emin. lia. }
    rewrite <- IZR_Zpower in G by lia. change (Zpower radix2 prec) with (2 ^ prec)%Z in G. rewrite <- E in G.
    destruct (Z.abs_spec z) as [[_ A]|[_ A]]; rewrite A in G; [exact G|].
    rewrite opp_IZR in G. apply generic_format_opp in G. rewrite Ropp_involutive in G. exact G.
  - rewrite <- F2R_IZR. apply (generic_format_FLT radix2 emin prec). exists (Float radix2 z 0); [reflexivity| |].
    + change (Zpower radix2 prec) with (2 ^ prec)%Z. cbn [Fnum]. lia.
    + cbn [Fexp]. lia.
Qed.

(** the arithmetic operations, when the rounded result does not overflow *)
Lemma Bplus_ok (x y : fl) : is_finite x = true -> is_finite y = true ->
  Rabs (rnd (B2R x + B2R y)) < bpow radix2 emax ->
  B2R (Bplus mode_NE x y) = rnd (B2R x + B2R y) /\ is_finite (Bplus mode_NE x y) = true.
Proof.
  intros F G H1. pose proof (Bplus_correct prec emax Hp He mode_NE x y F G) as K. cbn [round_mode] in K.
  rewrite Rlt_bool_true in K by exact H1. destruct K as (A & B & _). auto.
Qed.
Lemma Bminus_ok (x y : fl) : is_finite x = true -> is_finite y = true ->
  Rabs (rnd (B2R x - B2R y)) < bpow radix2 emax ->
  B2R (Bminus mode_NE x y) = rnd (B2R x - B2R y) /\ is_finite (Bminus mode_NE x y) = true.
Proof.
  intros F G H1. pose proof (Bminus_correct prec emax Hp He mode_NE x y F G) as K. cbn [round_mode] in K.
  rewrite Rlt_bool_true in K by exact H1. destruct K as (A & B & _). auto.
Qed.
Lemma Bmult_ok (x y : fl) : is_finite x = true -> is_finite y = true ->
  Rabs (rnd (B2R x * B2R y)) < bpow radix2 emax ->
  B2R (Bmult mode_NE x y) = rnd (B2R x * B2R y) /\ is_finite (Bmult mode_NE x y) = true.
Proof.
  intros F G H1. pose proof (Bmult_correct prec emax Hp He mode_NE x y) as K. cbn [round_mode] in K.
  rewrite Rlt_bool_true in K by exact H1. destruct K as (A & B & _). rewrite F, G in B. auto.
Qed.
Lemma Bdiv_ok (x y : fl) : is_finite x = true -> B2R y <> 0 ->
  Rabs (rnd (B2R x / B2R y)) < bpow radix2 emax ->
  B2R (Bdiv mode_NE x y) = rnd (B2R x / B2R y) /\ is_finite (Bdiv mode_NE x y) = true.
Proof.
  intros F G H1. pose proof (Bdiv_correct prec emax Hp He mode_NE x y G) as K. cbn [round_mode] in K.
  rewrite Rlt_bool_true in K by exact H1. destruct K as (A & B & _). rewrite F in B. auto.
Qed.

Lemma rnd_small r : Rabs r <= bpow radix2 (emax - 1) -> Rabs (rnd r) < bpow radix2 emax.
Proof.
  pose proof (Hp : (0 < prec)%Z). pose proof (He : (prec < emax)%Z).
  intros A. apply Rle_lt_trans with (bpow radix2 (emax - 1)); [|apply bpow_lt; lia].
  apply abs_round_le_generic; try apply valid_rnd_N; auto; try apply valid_fexp.
  apply generic_format_bpow. unfold SpecFloat.fexp, SpecFloat.emin. lia.
Qed.
Lemma format_small (r : R) k : (3 - emax < k <= emax - 1)%Z -> Rabs r <= bpow radix2 k -> Rabs (rnd r) < bpow radix2 emax.
Proof.
  intros K A. apply rnd_small. apply Rle_trans with (1 := A). apply bpow_le. lia.
Qed.
(** small integers are exact, as literals and as conversions *)
Lemma litZ_exact z : (Z.abs z <= 2 ^ prec)%Z -> B2R (blit prec emax Hp He z 0) = IZR z /\ is_finite (blit prec emax Hp He z 0) = true.
Proof.
  pose proof (Hp : (0 < prec)%Z). pose proof (He : (prec < emax)%Z).
  intros A. assert (E : litR z 0 = IZR z) by (unfold litR; cbn [Z.leb Z.compare]; f_equal; change (10 ^ 0)%Z with 1%Z; lia).
  destruct (blit_correct prec emax Hp He prec1 z 0) as [B C].
  - rewrite E. apply (rnd_small). rewrite <- abs_IZR. rewrite <- IZR_Zpower by lia. apply IZR_le.
    apply Z.le_trans with (1 := A). apply (Z.pow_le_mono_r 2); lia.
  - split; [|exact C]. rewrite B, E. apply round_generic; [apply valid_rnd_N|]. apply format_IZR. exact A.
Qed.
Lemma ofZ_exact z : (Z.abs z <= 2 ^ prec)%Z -> B2R (bnorm prec emax Hp He z 0) = IZR z /\ is_finite (bnorm prec emax Hp He z 0) = true.
Proof.
  pose proof (Hp : (0 < prec)%Z). pose proof (He : (prec < emax)%Z).
  intros A. destruct (ofZ_correct z) as [B C].
  - apply Z.le_trans with (1 := A). apply (Z.pow_le_mono_r 2); lia.
  - split; [|exact C]. rewrite B. apply round_generic; [apply valid_rnd_N|]. apply format_IZR. exact A.
Qed.
End F.

(** ** the number of terms of the series branch is representable *)
Theorem kmax_defined (L : libm 53 1024) n : libm_ok (Hp := Hp53) (He := He53) L -> (1 <= n)%Z -> is_int64 n ->
  exists k, series_kmax (B64 L) n = Val k /\ (1 <= k <= 2 ^ 53)%Z /\
            exists y : f64, is_finite y = true /\ - 1 <= B2R y <= 0 /\ B2R y = round radix2 (SpecFloat.fexp 53 1024) ZnearestE (- 1 / round radix2 (SpecFloat.fexp 53 1024) ZnearestE (IZR n))
             /\ Rabs (IZR k - Rpower (bpow radix2 (-52)) (B2R y)) <= 1 + bpow radix2 (-50) * Rpower (bpow radix2 (-52)) (B2R y).
Proof.
  intros HL Hn I. unfold is_int64, INT64_MIN, INT64_MAX in I.
  set (fe := SpecFloat.fexp 53 1024).
  pose proof (valid_fexp 53 1024 Hp53) as VF.
  pose proof (valid_rnd_N (fun t => negb (Z.even t))) as VR.
  destruct (ofZ_correct 53 1024 Hp53 He53 ltac:(lia) n) as [A B].
  { apply Z.le_trans with (2 ^ 63)%Z; [lia|]. apply Z.pow_le_mono_r; lia. }
  fold fe in A.
  set (fn := bnorm 53 1024 Hp53 He53 n 0) in *.
  assert (F1 : generic_format radix2 fe 1) by (apply (format_IZR 53 1024 Hp53 He53 ltac:(lia) 1); vm_compute; discriminate).
  assert (R1 : 1 <= B2R fn).
  { rewrite A. apply round_ge_generic; auto. apply IZR_le. lia. }
  assert (M1 : B2R (blit 53 1024 Hp53 He53 (-1) 0) = -1 /\ is_finite (blit 53 1024 Hp53 He53 (-1) 0) = true).
  { apply (litZ_exact 53 1024 Hp53 He53 ltac:(lia) (-1)). vm_compute; discriminate. }
  destruct M1 as [M1 M1'].
  assert (Q : -1 <= -1 / B2R fn <= 0).
  { assert (0 < / B2R fn) by (apply Rinv_0_lt_compat; lra). assert (/ B2R fn <= 1) by (rewrite <- Rinv_1; apply Rinv_le; lra). unfold Rdiv. lra. }
  assert (Q' : -1 <= round radix2 fe ZnearestE (-1 / B2R fn) <= 0).
  { split; [apply round_ge_generic; auto; [|lra] | apply round_le_generic; auto; [apply generic_format_0|lra]].
    change (-1) with (- (1)). apply generic_format_opp. exact F1. }
  destruct (Bdiv_ok 53 1024 Hp53 He53 (blit 53 1024 Hp53 He53 (-1) 0) fn M1' ltac:(lra)) as [D1 D2].
  { rewrite M1. apply Rle_lt_trans with 1; [apply Rabs_le; fold fe; lra|]. change 1 with (bpow radix2 0). apply bpow_lt. lia. }
  rewrite M1 in D1. fold fe in D1.
  set (y := Bdiv mode_NE (blit 53 1024 Hp53 He53 (-1) 0) fn) in *.
  assert (E1 : B2R (bnorm 53 1024 Hp53 He53 1 (1 - 53)) = bpow radix2 (-52)).
  { destruct (bnorm_correct 53 1024 Hp53 He53 1 (-52)) as [E _].
    - apply (rnd_small 53 1024 Hp53 He53 ltac:(lia)). rewrite F2R_bpow. rewrite Rabs_pos_eq by apply bpow_ge_0. apply bpow_le. lia.
    - change (1 - 53)%Z with (-52)%Z. rewrite E, F2R_bpow. apply round_generic; auto. apply (format_bpow 53 1024 Hp53); lia. }
  assert (E2 : is_finite (bnorm 53 1024 Hp53 He53 1 (1 - 53)) = true) by (vm_compute; reflexivity).
  assert (PW : 1 <= Rpower (bpow radix2 (-52)) (B2R y) <= bpow radix2 52).
  { unfold Rpower. assert (LN : ln (bpow radix2 (-52)) = - (52 * ln 2)).
    { rewrite bpow_powerRZ, powerRZ_Rpower by (cbn; lra). unfold Rpower. rewrite ln_exp. change (IZR radix2) with 2. ring. }
    rewrite LN. assert (l2 : 0 < ln 2) by (rewrite <- ln_1; apply ln_increasing; lra).
    rewrite D1. generalize dependent (round radix2 fe ZnearestE (-1 / B2R fn)). intros q Dq Qq. split.
    - rewrite <- exp_0. destruct (Req_EM_T q 0) as [->|NZ]. { right. f_equal. rewrite Rmult_0_l. reflexivity. } left. apply exp_increasing. assert (q < 0) by lra. nra.
    - replace (bpow radix2 52) with (exp (52 * ln 2)).
      + destruct (Req_EM_T q (-1)) as [->|NZ]. { right. f_equal. ring. } left. apply exp_increasing. nra.
      + rewrite bpow_powerRZ, powerRZ_Rpower by (cbn; lra). unfold Rpower. f_equal. }
  destruct (pow_acc _ _ _ _ L HL (bnorm 53 1024 Hp53 He53 1 (1 - 53)) y E2 D2) as [P1 P2].
  { rewrite E1. apply bpow_gt_0. }
  { rewrite E1. apply Rle_trans with (1 := proj2 PW). apply bpow_le. lia. }
  rewrite E1 in P2. set (v := m_pow _ _ L _ y) in *. set (t := Rpower _ _) in *.
  rewrite (Rabs_pos_eq t) in P2 by lra. change (2 - 53)%Z with (-51)%Z in P2. change (3 - 1024 - 53)%Z with (-1074)%Z in P2.
  assert (SM : bpow radix2 (-51) * t + bpow radix2 (-1074) <= bpow radix2 (-50) * t).
  { change (-50)%Z with (1 + -51)%Z. rewrite bpow_plus. change (bpow radix2 1) with 2.
    assert (bpow radix2 (-1074) <= bpow radix2 (-51)) by (apply bpow_le; lia). pose proof (bpow_gt_0 radix2 (-51)). nra. }
  assert (V : Rabs (B2R v - t) <= bpow radix2 (-50) * t) by lra.
  assert (B50 : bpow radix2 (-50) <= 1/2) by (change (1/2) with (1 / 2); replace (1/2) with (bpow radix2 (-1)) by (cbn; lra); apply bpow_le; lia).
  assert (B52 : bpow radix2 52 = 4503599627370496) by (cbn; lra).
  apply Rabs_le_inv in V.
  pose proof (Zceil_ub (B2R v)) as C1. pose proof (Zceil_lb (B2R v)) as C2.
  exists (Zceil (B2R v)). split; [|split].
  - unfold series_kmax.
    change (ceil_to_Z (B64 L) _) with (bceil_to_Z 53 1024 v).
    rewrite (bceil_correct 53 1024 v P1). apply i64_ok. unfold INT64_MIN, INT64_MAX.
    assert (KU : IZR (Zceil (B2R v)) <= 9007199254740992) by nra. apply (le_IZR _ 9007199254740992) in KU.
    assert (KL : 0 <= IZR (Zceil (B2R v))) by nra. apply (le_IZR 0) in KL. lia.
  - assert (KU : IZR (Zceil (B2R v)) <= 9007199254740992) by nra. apply (le_IZR _ 9007199254740992) in KU.
    assert (KL : 0 < IZR (Zceil (B2R v))) by nra. apply (lt_IZR 0) in KL. lia.
  - exists y. split; [exact D2|]. split; [rewrite D1; exact Q'|]. split; [rewrite D1, A; reflexivity|].
    fold t. apply Rabs_le. lra.
Qed.
