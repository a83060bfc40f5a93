(** * Real Li2 in IEEE arithmetic, any of the four precisions: the argument transformations

    The rational core enters as a hypothesis ([core]); Li2_core.v discharges it. *)
From Coq Require Import ZArith Reals Bool Lia Lra Psatz List.
From Coquelicot Require Import Coquelicot.
From Interval Require Import Tactic.
From Flocq Require Import Core Relative Sterbenz Mult_error IEEE754.BinarySingleNaN.
From Verif Require Import Num NumR NumB NumB_facts Proof_Float Libm Ferr FerrB Fcalc Polylog Polylog_eqs Fourier Consts Proof_Li2.
Import ListNotations.
Local Open Scope R_scope.

Lemma Li2_lip a b : 0 <= a <= / 2 -> 0 <= b <= / 2 -> Rabs (ReLi 2 a - ReLi 2 b) <= 2 * Rabs (a - b).
Proof.
  intros Ha Hb.
  assert (D : forall t, 0 <= t <= / 2 -> Rabs (over_t (ReLi 1) t) <= 2).
  { intros t Ht. unfold over_t. destruct (Req_EM_T t 0); [rewrite Rabs_R1; lra|].
    assert (E : ReLi 1 t = - ln (1 - t)) by (change (ReLi 1 t) with (- ln (Rabs (1 - t))); rewrite Rabs_pos_eq by lra; reflexivity). rewrite E.
    assert (L1 : ln (1 - t) <= 0) by (rewrite <- ln_1; apply ln_le; lra).
    assert (L2 : - ln (1 - t) <= 2 * t).
    { rewrite <- ln_Rinv by lra. assert (X := exp_ineq1_le (2 * t)). rewrite <- (ln_exp (2 * t)). apply ln_le; [apply Rinv_0_lt_compat; lra|]. eapply Rle_trans; [|exact X].
      apply (Rmult_le_reg_l (1 - t)); [lra|]. rewrite Rinv_r by lra. nra. }
    unfold Rdiv. rewrite Rabs_mult, Rabs_inv, !Rabs_pos_eq by lra. apply (Rmult_le_reg_r t); [lra|]. rewrite Rmult_assoc, Rinv_l by lra. lra. }
  destruct (MVT_gen (ReLi 2) b a (over_t (ReLi 1))) as (c & C1 & C2).
  - intros t Ht. apply ReLi_derive; [lia|]. left. unfold Rmin, Rmax in Ht. destruct (Rle_dec b a); lra.
  - intros t Ht. apply continuity_pt_filterlim. apply (ex_derive_continuous (ReLi 2)). eexists. apply ReLi_derive; [lia|]. left. unfold Rmin, Rmax in Ht. destruct (Rle_dec b a); lra.
  - rewrite C2, Rabs_mult. apply Rmult_le_compat_r; [apply Rabs_pos|]. apply D. unfold Rmin, Rmax in C1. destruct (Rle_dec b a); lra.
Qed.
Lemma Li2_up y : 0 <= y <= / 2 -> Rabs (ReLi 2 y) <= 2 * y.
Proof. intros H. pose proof (Li2_lip y 0 H ltac:(lra)) as G. rewrite (ReLi_0 2) in G by lia. rewrite !Rminus_0_r, (Rabs_pos_eq y) in G by lra. exact G. Qed.

(** ** the functional equations used by the five branches *)
Lemma eqA x : x < -1 -> ReLi 2 x = - (PI * PI / 6) + ln (1 - x) * (ln (1 - x) / 2 - ln (- x)) + ReLi 2 (/ (1 - x)).
Proof.
  intros L. pose proof basel as BAS. cbn [pow] in BAS. rewrite Rmult_1_r in BAS.
  assert (Y : 0 < / (1 - x) <= / 2) by (split; [apply Rinv_0_lt_compat; lra|apply Rinv_le_contravar; lra]). set (y := / (1 - x)) in *.
  pose proof (Li2_landen (1 - x) ltac:(lra)) as LD. replace (1 - (1 - x)) with x in LD by ring. fold y in LD.
  pose proof (Li2_reflection y) as RF. rewrite !Rabs_pos_eq in RF by lra.
  assert (EY : ln y = - ln (1 - x)) by (unfold y; apply ln_Rinv; lra).
  assert (E1 : ln (1 - y) = ln (- x) - ln (1 - x)). { replace (1 - y) with ((- x) * y) by (unfold y; field; lra). rewrite ln_mult by lra. lra. }
  rewrite EY, E1, BAS in RF. nra.
Qed.
Lemma eqB x : x < 0 -> ReLi 2 x = - / 2 * ln (1 - x) * ln (1 - x) - ReLi 2 (x / (x - 1)).
Proof.
  intros L. pose proof (Li2_landen (1 - x) ltac:(lra)) as LD. replace (1 - (1 - x)) with x in LD by ring.
  replace (1 - / (1 - x)) with (x / (x - 1)) in LD by (field; lra). lra.
Qed.
Lemma eqC x : 0 < x < 1 -> ReLi 2 x = PI * PI / 6 - ln x * ln (1 - x) - ReLi 2 (1 - x).
Proof.
  intros L. pose proof basel as BAS. cbn [pow] in BAS. rewrite Rmult_1_r in BAS. pose proof (Li2_reflection x) as RF. rewrite !Rabs_pos_eq in RF by lra. lra.
Qed.
Lemma eqD x : 1 < x -> ReLi 2 x = PI * PI / 6 - ln x * (ln (1 - / x) + ln x / 2) + ReLi 2 (1 - / x).
Proof.
  intros L. pose proof basel as BAS. cbn [pow] in BAS. rewrite Rmult_1_r in BAS. pose proof (Li2_reflection x) as RF. rewrite (Rabs_pos_eq x), (Rabs_left (1 - x)) in RF by lra.
  pose proof (Li2_landen x ltac:(lra)) as LD. assert (P : / x < 1) by (rewrite <- Rinv_1; apply Rinv_lt_contravar; lra).
  assert (E1 : ln (- (1 - x)) = ln (1 - / x) + ln x). { rewrite <- ln_mult by lra. f_equal. field. lra. }
  rewrite E1 in RF. nra.
Qed.
Lemma eqE x : 1 < x -> ReLi 2 x = PI * PI / 3 - / 2 * ln x * ln x - ReLi 2 (/ x).
Proof.
  intros L. pose proof basel as BAS. cbn [pow] in BAS. rewrite Rmult_1_r in BAS.
  pose proof (Li2_inversion 1 x (or_introl eq_refl) ltac:(lra)) as IV. rewrite Rabs_pos_eq in IV by lra. cbn [pow] in IV. rewrite Rmult_1_r in IV. lra.
Qed.

Section E.
Variables prec emax : Z.
Context (Hp : Prec_gt_0 prec) (He : Prec_lt_emax prec emax).
Hypothesis prec1 : (16 < prec)%Z.
Hypothesis em : (128 <= emax)%Z.
Hypothesis em2 : (142 <= emax + prec)%Z.
Hypothesis pe : (prec <= emax - 4)%Z.
Hypothesis em3 : (emax <= 20000)%Z.
Notation fl := (binary_float prec emax).
Notation emin := (3 - emax - prec)%Z.
Notation fexp := (SpecFloat.fexp prec emax).
Notation rnd := (round radix2 fexp ZnearestE).
Variable L : libm prec emax.
Hypothesis HL : libm_ok L.
Notation N := (NumB prec emax Hp He L).
Notation u := (u prec).
Notation eta := (eta prec emax).
Notation BIG := (BIG emax).
Notation A := (A prec emax).
Variable PIf : fl.
Variable k1 : fl -> fl -> fl -> fl.
Variable K : R.
Hypothesis K0 : 1 <= K.
Hypothesis core : forall y r s : fl, is_finite y = true -> 0 <= B2R y <= / 2 -> is_finite r = true -> Rabs (B2R r) <= 2 ^ 60 -> is_finite s = true -> (B2R s = 1 \/ B2R s = -1) ->
  A (k1 y r s) (B2R r + B2R s * ReLi 2 (B2R y)) (K * u * B2R y + u * Rabs (B2R r) + 45 * eta).
Hypothesis c6m : A (div N (mul N (opp N PIf) PIf) (lit N 6 0)) (- (PI * PI / 6)) (10 * u).
Hypothesis c12m : A (div N (mul N (opp N PIf) PIf) (lit N 12 0)) (- (PI * PI / 12)) (10 * u).
Hypothesis c6 : A (div N (mul N PIf PIf) (lit N 6 0)) (PI * PI / 6) (10 * u).
Hypothesis c3 : A (div N (mul N PIf PIf) (lit N 3 0)) (PI * PI / 3) (18 * u).

Lemma up : 0 < u <= / 2 ^ 17. Proof. exact (u17 prec prec1). Qed.
Lemma ep : 0 < eta <= u / 10 ^ 30. Proof. exact (eta30 prec emax prec1 em). Qed.
Lemma bigp : 2 ^ 100 <= BIG. Proof. exact (BIG100 emax em). Qed.
Lemma int_ok z : (Z.abs z <= 1000)%Z -> is_finite (lit N z 0) = true /\ B2R (lit N z 0) = IZR z.
Proof.
  intros H. destruct (litZ_exact prec emax Hp He ltac:(lia) z) as [P Q]; [|split; assumption]. eapply Z.le_trans; [exact H|]. apply Z.le_trans with (2 ^ 17)%Z; [lia|]. apply Z.pow_le_mono_r; lia.
Qed.
Hypothesis half_ok : is_finite (lit N 5 (-1)) = true /\ B2R (lit N 5 (-1)) = / 2.
Hypothesis mhalf_ok : is_finite (lit N (-5) (-1)) = true /\ B2R (lit N (-5) (-1)) = - / 2.

Definition bound (x : R) : R := (K + 60) * u * (Rmin 1 (Rabs x) + ln (1 + Rabs x) * ln (1 + Rabs x)) + 100 * eta.

Lemma scale c T S : 0 <= T <= S -> c <= K + 60 -> c * u * T <= (K + 60) * u * S.
Proof. intros H C. pose proof up. apply Rle_trans with ((K + 60) * u * T); [apply Rmult_le_compat_r; [lra|apply Rmult_le_compat_r; lra]|]. apply Rmult_le_compat_l; [apply Rmult_le_pos; lra|lra]. Qed.
Definition SC (x : R) : R := Rmin 1 (Rabs x) + ln (1 + Rabs x) * ln (1 + Rabs x).
Lemma bound_eq x e c T : 0 <= T <= SC x -> c <= K + 60 -> e <= c * u * T + 100 * eta -> e <= bound x.
Proof. intros H C G. pose proof (scale c T (SC x) H C) as Q. unfold bound. fold (SC x). lra. Qed.
(** 0 < x < 1/2 *)
Lemma brM (x : fl) : is_finite x = true -> 0 < B2R x < / 2 -> A (k1 x (lit N 0 0) (lit N 1 0)) (ReLi 2 (B2R x)) (bound (B2R x)).
Proof.
  intros Fx Hx. destruct (int_ok 0 ltac:(lia)) as [F0 V0]. destruct (int_ok 1 ltac:(lia)) as [F1 V1]. pose proof up as U. pose proof ep as T.
  pose proof (core x (lit N 0 0) (lit N 1 0) Fx ltac:(lra) F0 ltac:(rewrite V0, Rabs_R0; lra) F1 (or_introl V1)) as C. rewrite V0, V1, Rplus_0_l, Rmult_1_l, Rabs_R0, Rmult_0_r in C.
  eapply A_weak; [exact C|]. apply (bound_eq _ _ K (B2R x)); [|lra|lra]. unfold SC. rewrite (Rabs_pos_eq (B2R x)), Rmin_right by lra. pose proof (Rle_0_sqr (ln (1 + B2R x))) as Q. unfold Rsqr in Q. lra.
Qed.
(** 1/2 <= x < 1 *)
Lemma ln_small y : 0 <= y <= / 2 -> 0 <= - ln (1 - y) <= 2 * y.
Proof.
  intros H. split; [assert (ln (1 - y) <= ln 1) by (apply ln_le; lra); rewrite ln_1 in H0; lra|].
  rewrite <- ln_Rinv by lra. assert (X := exp_ineq1_le (2 * y)). rewrite <- (ln_exp (2 * y)). apply ln_le; [apply Rinv_0_lt_compat; lra|]. eapply Rle_trans; [|exact X].
  apply (Rmult_le_reg_l (1 - y)); [lra|]. rewrite Rinv_r by lra. nra.
Qed.
Lemma yln y : 0 < y <= / 2 -> 0 <= - ln y * y <= / 2.
Proof.
  intros H. assert (A : ln y <= 0) by (rewrite <- ln_1; apply ln_le; lra). split; [nra|].
  assert (B : - ln y <= / (2 * y)). { rewrite <- ln_Rinv by lra. assert (X := exp_ineq1_le (/ (2 * y))). rewrite <- (ln_exp (/ (2 * y))).
    apply ln_le; [apply Rinv_0_lt_compat; lra|]. assert (Z := exp_ge_taylor (/ (2 * y)) 2). 
    assert (P : 0 < / (2 * y)) by (apply Rinv_0_lt_compat; lra). specialize (Z ltac:(lra)). cbn [sum_f_R0 pow fact Nat.mul Nat.add INR] in Z. replace (/ y) with (2 * / (2 * y)) by (field; lra). nra. }
  apply (Rmult_le_compat_r y) in B; [|lra]. replace (/ (2 * y) * y) with (/ 2) in B by (field; lra). lra.
Qed.

(** *** facts about rounding *)
Lemma ep2 : eta <= u * u / 4.
Proof. unfold Fcalc.eta, Fcalc.u. change 4 with (bpow radix2 2). unfold Rdiv. rewrite <- bpow_opp, <- !bpow_plus. apply bpow_le. lia. Qed.
Lemma big_u : 4 <= BIG * u.
Proof. unfold Fcalc.BIG, Fcalc.u. change 4 with (bpow radix2 2). rewrite <- bpow_plus. apply bpow_le. lia. Qed.
Lemma rnd_rel r : bpow radix2 (2 - emax) <= Rabs r -> Rabs (rnd r - r) <= u * Rabs r.
Proof.
  intros H. assert (H' : bpow radix2 (emin + prec - 1) <= Rabs r) .
  { replace (emin + prec - 1)%Z with (2 - emax)%Z by ring. exact H. }
  pose proof (relative_error_N_FLT radix2 emin prec Hp (fun t => negb (Z.even t)) r H') as R.
  eapply Rle_trans; [exact R|]. right. unfold Fcalc.u. rewrite bpow_plus. change (bpow radix2 1) with 2. field.
Qed.
Lemma rnd_rel1 r : / 4 <= Rabs r -> Rabs (rnd r - r) <= u * Rabs r.
Proof. intros H. apply rnd_rel. eapply Rle_trans; [|exact H]. replace (/ 4) with (bpow radix2 (-2)) by (rewrite bp2; change (Pos.to_nat 2) with 2%nat; f_equal; ring). apply bpow_le. lia. Qed.
Lemma rnd_mono a b : a <= b -> rnd a <= rnd b.
Proof. apply round_le; [apply (fexp_correct prec emax Hp)|apply valid_rnd_N]. Qed.
Lemma rnd_B (x : fl) : rnd (B2R x) = B2R x.
Proof. apply round_generic; [apply valid_rnd_N|apply generic_format_B2R]. Qed.
Lemma rnd_int z : (Z.abs z <= 1000)%Z -> rnd (IZR z) = IZR z.
Proof. intros H. destruct (int_ok z H) as [_ E]. rewrite <- E. apply rnd_B. Qed.
Lemma rnd_half : rnd (/ 2) = / 2.
Proof. rewrite <- (proj2 half_ok). apply rnd_B. Qed.
Lemma gf1 : generic_format radix2 fexp 1.
Proof. rewrite <- (proj2 (int_ok 1 ltac:(lia))). apply generic_format_B2R. Qed.
Lemma sub1_exact (x : fl) : is_finite x = true -> / 2 <= B2R x <= 1 -> is_finite (sub N (lit N 1 0) x) = true /\ B2R (sub N (lit N 1 0) x) = 1 - B2R x.
Proof.
  intros Fx Hx. destruct (int_ok 1 ltac:(lia)) as [F1 V1]. pose proof bigp as BG. destruct (sub_r prec emax Hp He ltac:(lia) ltac:(lia) ltac:(lia) L (lit N 1 0) x F1 Fx) as [P Q].
  { rewrite V1. rewrite Rabs_pos_eq by lra. apply Rle_trans with (2 ^ 100); [|exact BG]. apply Rle_trans with (2 ^ 1); [lra|apply Rle_pow; [lra|lia]]. }
  split; [exact P|]. rewrite Q, V1. apply round_generic; [apply valid_rnd_N|]. apply sterbenz; [apply (fexp_correct prec emax Hp)|apply fexp_monotone|apply gf1|apply generic_format_B2R|lra].
Qed.
Lemma ln_rel2 t w d : 0 < w -> 0 <= d <= / 2 -> Rabs (t - w) <= d * w -> 0 < t /\ Rabs (ln t - ln w) <= 2 * d.
Proof.
  intros Hw Hd H. apply Rabs_le_between in H. assert (Ht : 0 < t) by nra. split; [exact Ht|].
  assert (G : forall a b, 0 < a -> 0 < b -> ln a - ln b <= (a - b) / b).
  { intros a b Ha Hb. rewrite <- ln_div by assumption. assert (0 < a / b) by (apply Rdiv_lt_0_compat; assumption).
    assert (X := exp_ineq1_le (a / b - 1)). replace ((a - b) / b) with (a / b - 1) by (field; lra). rewrite <- (ln_exp (a / b - 1)). apply ln_le; lra. }
  apply Rabs_le. pose proof (G t w Ht Hw) as U. pose proof (G w t Hw Ht) as V. split.
  - enough ((w - t) / t <= 2 * d) by lra. apply (Rmult_le_reg_r t); [exact Ht|]. unfold Rdiv at 1. rewrite Rmult_assoc, Rinv_l by lra. nra.
  - enough ((t - w) / w <= d) by lra. apply (Rmult_le_reg_r w); [exact Hw|]. unfold Rdiv. rewrite Rmult_assoc, Rinv_l by lra. lra.
Qed.
(** a float in [1/2, 1) is at most 1 - u; a float above 1 is at least 1 + 2u *)
Lemma below1 (x : fl) : B2R x < 1 -> B2R x <= 1 - u.
Proof.
  intros H. pose proof (pred_ge_gt radix2 fexp (B2R x) 1 (generic_format_B2R prec emax x) gf1 H) as P. eapply Rle_trans; [exact P|].
  change 1 with (bpow radix2 0) at 1. rewrite pred_bpow. unfold SpecFloat.fexp, SpecFloat.emin.
  rewrite Z.max_l by lia. unfold Fcalc.u. change (bpow radix2 0) with 1. replace (0 - prec)%Z with (- prec)%Z by ring. lra.
Qed.
Lemma above1 (x : fl) : 1 < B2R x -> 1 + 2 * u <= B2R x.
Proof.
  intros H. pose proof (succ_le_lt radix2 fexp 1 (B2R x) gf1 (generic_format_B2R prec emax x) H) as P. eapply Rle_trans; [|exact P].
  rewrite succ_eq_pos by lra. change 1 with (bpow radix2 0) at 3. rewrite ulp_bpow. unfold SpecFloat.fexp, SpecFloat.emin. rewrite Z.max_l by lia.
  unfold Fcalc.u. replace (0 + 1 - prec)%Z with (1 + - prec)%Z by ring. rewrite bpow_plus. change (bpow radix2 1) with 2. lra.
Qed.
(** *** putting the core and the remainder together *)
Lemma comb (y r s : fl) yr r0 er ey M sg : A y yr ey -> 0 <= B2R y <= / 2 -> 0 <= yr <= / 2 -> A r r0 er -> Rabs r0 + er <= M -> M <= 2 ^ 60 ->
  is_finite s = true -> B2R s = sg -> (sg = 1 \/ sg = -1) -> A (k1 y r s) (r0 + sg * ReLi 2 yr) (K * u * B2R y + u * M + 45 * eta + er + 2 * ey).
Proof.
  intros [Fy Ey] Hy Hyr [Fr Er] HM H60 Fs <- Hs. pose proof up as U.
  assert (Hr : Rabs (B2R r) <= M). { replace (B2R r) with (r0 + (B2R r - r0)) by ring. eapply Rle_trans; [apply Rabs_triang|]. lra. }
  destruct (core y r s Fy Hy Fr ltac:(lra) Fs Hs) as [F C]. split; [exact F|].
  pose proof (Li2_lip _ _ Hy Hyr) as LP.
  assert (LP2 : Rabs (B2R s * (ReLi 2 (B2R y) - ReLi 2 yr)) <= 2 * ey).
  { rewrite Rabs_mult. replace (Rabs (B2R s)) with 1 by (destruct Hs as [-> | ->]; [rewrite Rabs_R1|rewrite Rabs_left by lra]; lra). lra. }
  assert (UR : u * Rabs (B2R r) <= u * M) by (apply Rmult_le_compat_l; lra).
  match goal with |- Rabs (?f - _) <= _ => replace (f - (r0 + B2R s * ReLi 2 yr)) with ((f - (B2R r + B2R s * ReLi 2 (B2R y))) + ((B2R r - r0) + B2R s * (ReLi 2 (B2R y) - ReLi 2 yr))) by ring end.
  eapply Rle_trans; [apply Rabs_triang|]. assert (Rabs ((B2R r - r0) + B2R s * (ReLi 2 (B2R y) - ReLi 2 yr)) <= er + 2 * ey) by (eapply Rle_trans; [apply Rabs_triang|]; lra). lra.
Qed.
Lemma mle a b c d : 0 <= a <= b -> 0 <= c <= d -> 0 <= a * c <= b * d.
Proof. intros H G. split; [apply Rmult_le_pos; lra|apply Rmult_le_compat; lra]. Qed.
Lemma big_ok M : M <= 2 ^ 100 -> M <= BIG.
Proof. pose proof bigp. lra. Qed.
Lemma log_A (x : fl) : is_finite x = true -> 0 < B2R x -> A (nlog N x) (ln (B2R x)) (4 * u * Rabs (ln (B2R x)) + 2 * eta).
Proof. intros F H. apply A_close. exact (log_acc _ _ _ _ _ HL x F H). Qed.
Lemma log1p_A (x : fl) : is_finite x = true -> -1 < B2R x -> A (nlog1p N x) (ln (1 + B2R x)) (4 * u * Rabs (ln (1 + B2R x)) + 2 * eta).
Proof. intros F H. apply A_close. exact (log1p_acc _ _ _ _ _ HL x F H). Qed.
Lemma SC1 x : 1 <= Rabs x -> SC x = 1 + ln (1 + Rabs x) * ln (1 + Rabs x).
Proof. intros H. unfold SC. rewrite Rmin_left by exact H. reflexivity. Qed.
Lemma SC_ge x : Rmin 1 (Rabs x) <= SC x.
Proof. unfold SC. pose proof (Rle_0_sqr (ln (1 + Rabs x))) as Q. unfold Rsqr in Q. lra. Qed.
Lemma PI2 : 98 / 10 <= PI * PI <= 99 / 10. Proof. split; interval. Qed.
Notation Aadd := (A_add prec emax Hp He ltac:(lia) ltac:(lia) ltac:(lia) L).
Notation Asub := (A_sub prec emax Hp He ltac:(lia) ltac:(lia) ltac:(lia) L).
Notation Amul := (A_mul prec emax Hp He ltac:(lia) ltac:(lia) ltac:(lia) L).
Notation Adiv := (A_div prec emax Hp He ltac:(lia) ltac:(lia) ltac:(lia) L).
Lemma brC (x : fl) : is_finite x = true -> / 2 <= B2R x < 1 ->
  A (k1 (sub N (lit N 1 0) x) (sub N (div N (mul N PIf PIf) (lit N 6 0)) (mul N (nlog N x) (nlog1p N (opp N x)))) (lit N (-1) 0)) (ReLi 2 (B2R x)) (bound (B2R x)).
Proof.
  intros Fx Hx. destruct (int_ok (-1) ltac:(lia)) as [F1 V1]. pose proof up as U. pose proof ep as T. pose proof ep2 as T2. pose proof PI2 as P2.
  destruct (sub1_exact x Fx ltac:(lra)) as [Fy Vy]. pose proof (below1 x ltac:(lra)) as BX. set (X := B2R x) in *. set (Y := 1 - X) in *.
  assert (HY : u <= Y <= / 2) by (unfold Y; lra).
  pose proof (ln_small Y ltac:(lra)) as La. replace (1 - Y) with X in La by (unfold Y; ring).
  pose proof (yln Y ltac:(lra)) as Lb.
  set (V := / (2 * Y)). assert (HV : 0 < V) by (apply Rinv_0_lt_compat; lra). assert (YV : Y * V = / 2) by (unfold V; field; lra).
  assert (Lb' : - ln Y <= V) by nra. assert (Lb0 : ln Y <= 0) by (rewrite <- ln_1; apply ln_le; lra).
  assert (uV : u * V <= / 2) by nra.
  assert (eV : eta * V <= u / 8) by nra.
  pose proof (log_A x Fx ltac:(fold X; lra)) as Al. fold X in Al.
  destruct (opp_r prec emax Hp He L x Fx) as [Fo Vo].
  pose proof (log1p_A (opp N x) Fo ltac:(rewrite Vo; fold X; lra)) as Al1. rewrite Vo in Al1. fold X in Al1. replace (1 + - X) with Y in Al1 by (unfold Y; ring).
  apply (A_weak _ _ _ _ _ (8 * u * Y + 2 * eta)) in Al; [|rewrite Rabs_left1 by lra; nra].
  apply (A_weak _ _ _ _ _ (4 * u * V + 2 * eta)) in Al1; [|rewrite Rabs_left1 by lra; nra].
  pose proof (mle 0 0 0 0) as _.
  assert (e1 : 2 * Y * (4 * u * V + 2 * eta) = 4 * u + 4 * (eta * Y)) by (replace (2 * Y * (4 * u * V + 2 * eta)) with (8 * u * (Y * V) + 4 * (eta * Y)) by ring; rewrite YV; field).
  assert (e2 : V * (8 * u * Y + 2 * eta) = 4 * u + 2 * (eta * V)) by (replace (V * (8 * u * Y + 2 * eta)) with (8 * u * (Y * V) + 2 * (eta * V)) by ring; rewrite YV; field).
  assert (e3 : (8 * u * Y + 2 * eta) * (4 * u * V + 2 * eta) = 16 * (u * u) + 16 * (u * (eta * Y)) + 8 * (u * (eta * V)) + 4 * (eta * eta)) by (replace ((8 * u * Y + 2 * eta) * (4 * u * V + 2 * eta)) with (32 * (u * u) * (Y * V) + 16 * (u * (eta * Y)) + 8 * (u * (eta * V)) + 4 * (eta * eta)) by ring; rewrite YV; field).
  pose proof (mle eta (u / 10 ^ 30) Y (/ 2) ltac:(lra) ltac:(lra)) as m1. 
  pose proof (mle u (/ 2 ^ 17) u u ltac:(lra) ltac:(lra)) as m2. pose proof (mle u (/ 2 ^ 17) (eta * Y) (u / 10 ^ 30 * / 2) ltac:(lra) ltac:(lra)) as m3.
  assert (eV0 : 0 <= eta * V) by (apply Rmult_le_pos; lra). pose proof (mle u (/ 2 ^ 17) (eta * V) (u / 8) ltac:(lra) ltac:(lra)) as m4. pose proof (mle eta (u / 10 ^ 30) eta 1 ltac:(lra) ltac:(lra)) as m5.
  pose proof (Amul _ _ _ _ _ _ (2 * Y) V (11 / 10) Al Al1 ltac:(rewrite Rabs_left1 by lra; lra) ltac:(rewrite Rabs_left1 by lra; lra) ltac:(rewrite e1, e2, e3; lra) ltac:(apply big_ok; lra)) as Ap.
  apply (A_weak _ _ _ _ _ (10 * u)) in Ap; [|rewrite e1, e2, e3; lra].
  assert (Pr : 0 <= ln X * ln Y <= 1) by nra.
  pose proof (Asub _ _ _ _ _ _ 3 c6 Ap ltac:(rewrite Rabs_pos_eq by lra; lra) ltac:(apply big_ok; lra)) as Ar.
  apply (A_weak _ _ _ _ _ (24 * u)) in Ar; [|lra].
  assert (Ay : A (sub N (lit N 1 0) x) Y 0) by (split; [exact Fy|rewrite Vy; fold X; fold Y; rewrite Rminus_eq_0, Rabs_R0; lra]).
  pose proof (comb _ _ _ _ _ _ _ 3 (-1) Ay ltac:(rewrite Vy; fold X; fold Y; lra) ltac:(lra) Ar ltac:(rewrite Rabs_pos_eq by lra; lra) ltac:(lra) F1 V1 (or_intror eq_refl)) as C.
  rewrite (eqC X ltac:(lra)). replace (PI * PI / 6 - ln X * ln (1 - X) - ReLi 2 (1 - X)) with (PI * PI / 6 - ln X * ln Y + -1 * ReLi 2 Y) by (unfold Y; ring).
  eapply A_weak; [exact C|]. apply (bound_eq X _ (K + 60) (/ 2)); [|lra|].
  - split; [lra|]. eapply Rle_trans; [|apply SC_ge]. rewrite Rabs_pos_eq by lra. rewrite Rmin_right by lra. lra.
  - rewrite Vy. fold X. fold Y. assert (K * u * Y <= K * u * / 2) by (apply Rmult_le_compat_l; [apply Rmult_le_pos; lra|lra]). nra.
Qed.
Lemma ln_top (x : fl) : is_finite x = true -> 0 < B2R x -> ln (1 + B2R x) <= 20001.
Proof.
  intros F H. assert (B2R x < bpow radix2 emax) by (pose proof (abs_B2R_lt_emax prec emax x) as Q; rewrite Rabs_pos_eq in Q by lra; exact Q).
  assert (1 <= bpow radix2 emax) by (change 1 with (bpow radix2 0); apply bpow_le; lia).
  apply Rle_trans with (ln (bpow radix2 (emax + 1))). { apply ln_le; [lra|]. rewrite bpow_plus. change (bpow radix2 1) with 2. lra. }
  rewrite bpow_exp, ln_exp. change (IZR radix2) with 2. assert (IZR (emax + 1) <= 20001) by (apply IZR_le; lia). assert (0 <= IZR (emax + 1)) by (apply IZR_le; lia).
  assert (0 < ln 2 <= 1) by (split; interval). nra.
Qed.
Lemma ln_top1 (x : fl) : is_finite x = true -> 0 < B2R x -> ln (B2R x) <= 20001.
Proof. intros F H. eapply Rle_trans; [|apply (ln_top x F H)]. apply ln_le; lra. Qed.
Lemma inv_float (x : fl) : is_finite x = true -> 1 < B2R x -> is_finite (div N (lit N 1 0) x) = true /\ B2R (div N (lit N 1 0) x) = rnd (/ B2R x).
Proof.
  intros Fx Hx. destruct (int_ok 1 ltac:(lia)) as [F1 V1]. assert (P : 0 < / B2R x < 1) by (split; [apply Rinv_0_lt_compat; lra|rewrite <- Rinv_1; apply Rinv_lt_contravar; lra]).
  destruct (div_r prec emax Hp He ltac:(lia) ltac:(lia) ltac:(lia) L (lit N 1 0) x F1 ltac:(lra)) as [P1 Q1].
  { rewrite V1. unfold Rdiv. rewrite Rmult_1_l, Rabs_pos_eq by lra. apply big_ok. lra. }
  split; [exact P1|]. rewrite Q1, V1. unfold Rdiv. rewrite Rmult_1_l. reflexivity.
Qed.
(** 1 < x < 2 *)
Lemma brD (x : fl) : is_finite x = true -> 1 < B2R x < 2 ->
  A (k1 (sub N (lit N 1 0) (div N (lit N 1 0) x))
        (sub N (div N (mul N PIf PIf) (lit N 6 0)) (mul N (nlog N x) (add N (nlog N (sub N (lit N 1 0) (div N (lit N 1 0) x))) (mul N (lit N 5 (-1)) (nlog N x))))) (lit N 1 0)) (ReLi 2 (B2R x)) (bound (B2R x)).
Proof.
  intros Fx Hx. destruct (int_ok 1 ltac:(lia)) as [F1 V1]. pose proof up as U. pose proof ep as T. pose proof ep2 as T2. pose proof PI2 as P2.
  destruct (inv_float x Fx ltac:(lra)) as [Fi Vi]. pose proof (above1 x ltac:(lra)) as BX. set (X := B2R x) in *.
  assert (HI : / 2 <= / X < 1) by (split; [apply Rinv_le_contravar; lra|rewrite <- Rinv_1; apply Rinv_lt_contravar; lra]).
  assert (RI : / 2 <= rnd (/ X) <= 1). { split; [rewrite <- rnd_half; apply rnd_mono; lra|rewrite <- (rnd_int 1 ltac:(lia)); apply rnd_mono; lra]. }
  pose proof (rnd_rel1 (/ X) ltac:(rewrite Rabs_pos_eq by lra; lra)) as RE. rewrite (Rabs_pos_eq (/ X)) in RE by lra.
  destruct (sub1_exact (div N (lit N 1 0) x) Fi ltac:(rewrite Vi; lra)) as [Fy Vy]. rewrite Vi in Vy.
  set (yf := sub N (lit N 1 0) (div N (lit N 1 0) x)) in *. set (Y := 1 - / X).
  set (v := / (X - 1)). assert (Hv : 0 < v) by (apply Rinv_0_lt_compat; lra). assert (Xv : (X - 1) * v = 1) by (unfold v; field; lra).
  assert (v1 : 1 <= v) by nra. assert (uv : 0 <= u * v <= / 2) by (split; nra).
  assert (uX : u * / X = u * v * Y) by (unfold v, Y; field; lra).
  assert (HY : 0 < Y <= / 2) by (unfold Y; lra).
  assert (DY : Rabs (B2R yf - Y) <= u * v * Y). { rewrite Vy. unfold Y at 1. replace (1 - rnd (/ X) - (1 - / X)) with (- (rnd (/ X) - / X)) by ring. rewrite Rabs_Ropp, <- uX. exact RE. }
  destruct (ln_rel2 (B2R yf) Y (u * v) ltac:(lra) uv DY) as [Py Ly].
  (* logarithms *)
  assert (lam : 0 < ln X <= X - 1). { split; [rewrite <- ln_1; apply ln_increasing; lra|]. assert (Q := exp_ineq1_le (X - 1)). rewrite <- (ln_exp (X - 1)). apply ln_le; lra. }
  assert (lam2 : u <= ln X). { assert (Q := exp_ineq1_le (- u)). assert (ln (/ X) <= - u); [|rewrite ln_Rinv in H by lra; lra]. rewrite <- (ln_exp (- u)). apply ln_le; [lra|]. eapply Rle_trans; [|exact Q]. apply (Rmult_le_reg_l X); [lra|]. rewrite Rinv_r by lra. nra. }
  assert (LB : 0 <= - ln Y <= v). { split; [assert (ln Y <= ln 1) by (apply ln_le; lra); rewrite ln_1 in H; lra|]. rewrite <- ln_Rinv by lra. assert (Q := exp_ineq1_le v). rewrite <- (ln_exp v). apply ln_le; [apply Rinv_0_lt_compat; lra|].
    eapply Rle_trans; [|exact Q]. right. unfold Y, v. field. lra. }
  assert (ll : 0 <= ln X * v <= 1) by nra.
  pose proof (log_A x Fx ltac:(fold X; lra)) as Al. fold X in Al. rewrite (Rabs_pos_eq (ln X)) in Al by lra.
  pose proof (log_A yf Fy Py) as Ab.
  assert (Ab2 : A (nlog N yf) (ln Y) (7 * (u * v))).
  { destruct Ab as [Fb Eb]. split; [exact Fb|]. assert (Q : Rabs (ln (B2R yf)) <= v + 2 * (u * v)). { replace (ln (B2R yf)) with (ln Y + (ln (B2R yf) - ln Y)) by ring. eapply Rle_trans; [apply Rabs_triang|]. rewrite (Rabs_left1 (ln Y)) by lra. lra. }
    replace (B2R (nlog N yf) - ln Y) with ((B2R (nlog N yf) - ln (B2R yf)) + (ln (B2R yf) - ln Y)) by ring. eapply Rle_trans; [apply Rabs_triang|].
    assert (4 * u * Rabs (ln (B2R yf)) <= 4 * u * (v + 2 * (u * v))) by (apply Rmult_le_compat_l; lra). pose proof (mle u (/ 2 ^ 17) (u * v) (u * v) ltac:(lra) ltac:(lra)). assert (eta <= (u * v) / 10 ^ 30) by nra. lra. }
  clear Ab DY Ly. destruct half_ok as [Fh Vh]. pose proof (A_self prec emax (lit N 5 (-1)) Fh) as Ah. rewrite Vh in Ah.
  assert (ul : 0 <= u * ln X <= u) by nra. assert (eul : eta <= u * ln X / 4) by nra.
  pose proof (Amul _ _ _ _ _ _ (/ 2) (ln X) (ln X) Ah Al ltac:(rewrite Rabs_pos_eq by lra; lra) ltac:(rewrite Rabs_pos_eq by lra; lra) ltac:(nra) ltac:(apply big_ok; lra)) as Ahl.
  apply (A_weak _ _ _ _ _ (4 * u)) in Ahl; [|lra].
  assert (uvu : u <= u * v) by nra.
  assert (uvs : u * v <= v / 2 ^ 17) by (unfold Rdiv; rewrite (Rmult_comm v); apply Rmult_le_compat_r; lra).
  assert (v2 : 2 * v <= BIG) by (pose proof big_u as BU; apply (Rmult_le_reg_l u); lra).
  assert (sY : Rabs (ln Y + / 2 * ln X) <= v) by (apply Rabs_le; lra).
  pose proof (Aadd _ _ _ _ _ _ (2 * v) Ab2 Ahl ltac:(lra) v2) as As.
  apply (A_weak _ _ _ _ _ (14 * (u * v))) in As; [|lra].
  assert (e1 : ln X * (14 * (u * v)) <= 14 * u) by nra.
  assert (ev : 0 <= eta * v <= u / 8) by nra.
  assert (e2 : v * (4 * u * ln X + 2 * eta) <= 4 * u + u / 4) by nra.
  assert (e3 : (4 * u * ln X + 2 * eta) * (14 * (u * v)) <= u / 10).
  { pose proof (mle u (/ 2 ^ 17) (v * (4 * u * ln X + 2 * eta)) (5 * u) ltac:(lra) ltac:(split; [apply Rmult_le_pos; nra|lra])). nra. }
  pose proof (Amul _ _ _ _ _ _ (ln X) v (11 / 10) Al As ltac:(rewrite Rabs_pos_eq by lra; lra) ltac:(apply Rabs_le; lra) ltac:(lra) ltac:(apply big_ok; lra)) as Ap.
  apply (A_weak _ _ _ _ _ (21 * u)) in Ap; [|lra].
  assert (Pr : Rabs (ln X * (ln Y + / 2 * ln X)) <= 1). { rewrite Rabs_mult, (Rabs_pos_eq (ln X)) by lra. assert (Rabs (ln Y + / 2 * ln X) <= v) by (apply Rabs_le; lra). pose proof (Rabs_pos (ln Y + / 2 * ln X)). nra. }
  assert (Pr2 : Rabs (PI * PI / 6 - ln X * (ln Y + / 2 * ln X)) <= 27 / 10) by (unfold Rminus; eapply Rle_trans; [apply Rabs_triang|]; rewrite Rabs_Ropp, (Rabs_pos_eq (PI * PI / 6)) by lra; lra).
  pose proof (Asub _ _ _ _ _ _ 3 c6 Ap ltac:(lra) ltac:(apply big_ok; lra)) as Ar.
  apply (A_weak _ _ _ _ _ (36 * u)) in Ar; [|lra].
  assert (Ay : A yf Y u) by (split; [exact Fy|rewrite Vy; unfold Y; replace (1 - rnd (/ X) - (1 - / X)) with (- (rnd (/ X) - / X)) by ring; rewrite Rabs_Ropp; nra]).
  pose proof (comb _ _ _ _ _ _ _ 3 1 Ay ltac:(rewrite Vy; lra) ltac:(lra) Ar ltac:(lra) ltac:(lra) F1 V1 (or_introl eq_refl)) as C.
  rewrite (eqD X ltac:(lra)). replace (PI * PI / 6 - ln X * (ln (1 - / X) + ln X / 2) + ReLi 2 (1 - / X)) with (PI * PI / 6 - ln X * (ln Y + / 2 * ln X) + 1 * ReLi 2 Y) by (unfold Y; field; lra).
  eapply A_weak; [exact C|]. apply (bound_eq X _ (K + 50) 1); [|lra|].
  - split; [lra|]. eapply Rle_trans; [|apply SC_ge]. rewrite Rabs_pos_eq by lra. rewrite Rmin_left by lra. lra.
  - assert (K * u * B2R yf <= K * u * / 2) by (apply Rmult_le_compat_l; [apply Rmult_le_pos; lra|rewrite Vy; lra]). nra.
Qed.
(** x >= 2 *)
Lemma brE (x : fl) : is_finite x = true -> 2 <= B2R x ->
  A (k1 (div N (lit N 1 0) x) (sub N (div N (mul N PIf PIf) (lit N 3 0)) (mul N (mul N (lit N 5 (-1)) (nlog N x)) (nlog N x))) (lit N (-1) 0)) (ReLi 2 (B2R x)) (bound (B2R x)).
Proof.
  intros Fx Hx. destruct (int_ok (-1) ltac:(lia)) as [F1 V1]. pose proof up as U. pose proof ep as T. pose proof PI2 as P2.
  destruct (inv_float x Fx ltac:(lra)) as [Fi Vi]. pose proof (ln_top1 x Fx ltac:(lra)) as LT. set (X := B2R x) in *.
  assert (HI : 0 < / X <= / 2) by (split; [apply Rinv_0_lt_compat; lra|apply Rinv_le_contravar; lra]).
  assert (RI : 0 <= rnd (/ X) <= / 2). { split; [rewrite <- (rnd_int 0 ltac:(lia)); apply rnd_mono; lra|rewrite <- rnd_half; apply rnd_mono; lra]. }
  pose proof (rnd_err prec emax Hp (/ X)) as RE. fold u eta in RE. rewrite (Rabs_pos_eq (/ X)) in RE by lra.
  set (l := ln X) in *. assert (l0 : 69 / 100 <= l). { apply Rle_trans with (ln 2); [interval|]. apply ln_le; lra. }
  pose proof (log_A x Fx ltac:(fold X; lra)) as Al. fold X in Al. fold l in Al. rewrite (Rabs_pos_eq l) in Al by lra.
  assert (ul : 0 <= u * l) by (apply Rmult_le_pos; lra). assert (el : eta <= u * l / 10 ^ 29) by nra.
  apply (A_weak _ _ _ _ _ (5 * (u * l))) in Al; [|lra].
  destruct half_ok as [Fh Vh]. pose proof (A_self prec emax (lit N 5 (-1)) Fh) as Ah. rewrite Vh in Ah.
  assert (ul2 : u * l <= l / 100) by nra.
  pose proof (Amul _ _ _ _ _ _ (/ 2) l l Ah Al ltac:(rewrite Rabs_pos_eq by lra; lra) ltac:(rewrite Rabs_pos_eq by lra; lra) ltac:(nra) ltac:(apply big_ok; lra)) as Ahl.
  apply (A_weak _ _ _ _ _ (4 * (u * l))) in Ahl; [|lra].
  set (ll := l * l). assert (Hll : 47 / 100 <= ll <= 10 ^ 10) by (unfold ll; split; nra).
  assert (ull : u * l * l = u * ll) by (unfold ll; ring). assert (ull2 : 0 <= u * ll) by (apply Rmult_le_pos; lra).
  assert (uul : 20 * (u * l * (u * l)) <= u * ll / 10). { replace (u * l * (u * l)) with (u * (u * ll)) by (unfold ll; ring). nra. }
  assert (ell : eta <= u * ll / 10) by nra.
  pose proof (Amul _ _ _ _ _ _ (/ 2 * l) l ll Ahl Al ltac:(rewrite Rabs_pos_eq by lra; lra) ltac:(rewrite Rabs_pos_eq by lra; lra) ltac:(fold ll; nra) ltac:(apply big_ok; lra)) as Ap.
  apply (A_weak _ _ _ _ _ (8 * (u * ll))) in Ap; [|nra].
  replace (/ 2 * l * l) with (/ 2 * ll) in Ap by (unfold ll; ring).
  assert (ull3 : u * ll <= ll / 100) by nra.
  assert (Pr : Rabs (PI * PI / 3 - / 2 * ll) <= 33 / 10 + ll / 2) by (apply Rabs_le; lra).
  pose proof (Asub _ _ _ _ _ _ (4 + ll) c3 Ap ltac:(lra) ltac:(apply big_ok; lra)) as Ar.
  apply (A_weak _ _ _ _ _ (23 * u + 9 * (u * ll))) in Ar; [|lra].
  assert (Ay : A (div N (lit N 1 0) x) (/ X) (u)) by (split; [exact Fi|rewrite Vi; nra]).
  pose proof (comb _ _ _ _ _ _ _ (4 + ll) (-1) Ay ltac:(rewrite Vi; lra) ltac:(lra) Ar ltac:(lra) ltac:(lra) F1 V1 (or_intror eq_refl)) as C.
  rewrite (eqE X ltac:(lra)). fold l. replace (PI * PI / 3 - / 2 * l * l - ReLi 2 (/ X)) with (PI * PI / 3 - / 2 * ll + -1 * ReLi 2 (/ X)) by (unfold ll; ring).
  eapply A_weak; [exact C|]. apply (bound_eq X _ (K + 50) (1 + ll)); [|lra|].
  - split; [lra|]. rewrite SC1, Rabs_pos_eq by (try rewrite Rabs_pos_eq; lra). assert (l <= ln (1 + X)) by (apply ln_le; lra). unfold ll. nra.
  - assert (K * u * B2R (div N (lit N 1 0) x) <= K * u * / 2) by (apply Rmult_le_compat_l; [apply Rmult_le_pos; lra|rewrite Vi; lra]). assert (0 <= K * (u * ll)) by nra. nra.
Qed.
(** 1 - x for x < -1: never overflows, relative error u *)
Lemma onemx (x : fl) : is_finite x = true -> B2R x < 0 ->
  is_finite (sub N (lit N 1 0) x) = true /\ B2R (sub N (lit N 1 0) x) = rnd (1 - B2R x) /\ Rabs (rnd (1 - B2R x) - (1 - B2R x)) <= u * (1 - B2R x).
Proof.
  intros Fx Hx. destruct (int_ok 1 ltac:(lia)) as [F1 V1]. set (X := B2R x) in *.
  assert (RE : Rabs (rnd (1 - X) - (1 - X)) <= u * (1 - X)). { pose proof (rnd_rel1 (1 - X)) as Q. rewrite (Rabs_pos_eq (1 - X)) in Q by lra. apply Q. lra. }
  destruct (Rle_lt_dec (bpow radix2 (prec + 1)) (- X)) as [HB|HB].
  - assert (E : rnd (1 - X) = - X).
    { assert (GX : generic_format radix2 fexp (- X)) by (apply generic_format_opp; apply generic_format_B2R). apply Rle_antisym.
      - apply round_N_le_midp; [apply (fexp_correct prec emax Hp)|exact GX|]. rewrite succ_eq_pos by lra.
        assert (UL : ulp radix2 fexp (bpow radix2 (prec + 1)) <= ulp radix2 fexp (- X)). { apply ulp_le; [apply (fexp_correct prec emax Hp)|apply fexp_monotone|]. rewrite !Rabs_pos_eq; [exact HB|lra|apply bpow_ge_0]. }
        set (ux := ulp radix2 fexp (- X)) in *. clearbody ux. rewrite ulp_bpow in UL. unfold SpecFloat.fexp, SpecFloat.emin in UL. rewrite Z.max_l in UL by lia. replace (prec + 1 + 1 - prec)%Z with 2%Z in UL by ring. change (bpow radix2 2) with 4 in UL. lra.
      - rewrite <- (round_generic radix2 fexp ZnearestE (- X) GX) at 1. apply rnd_mono. lra. }
    pose proof (Bminus_correct prec emax Hp He mode_NE (lit N 1 0) x F1 Fx) as C. cbn [round_mode] in C. rewrite V1 in C. fold X in C. rewrite Rlt_bool_true in C.
    + destruct C as (P & Q & _). split; [exact Q|]. split; [exact P|exact RE].
    + rewrite E, Rabs_Ropp. apply (abs_B2R_lt_emax prec emax x).
  - destruct (sub_r prec emax Hp He ltac:(lia) ltac:(lia) ltac:(lia) L (lit N 1 0) x F1 Fx) as [P Q].
    + rewrite V1. fold X. rewrite Rabs_pos_eq by lra. apply Rle_trans with (bpow radix2 (prec + 2)); [|apply bpow_le; lia].
      replace (prec + 2)%Z with (1 + (prec + 1))%Z by ring. rewrite (bpow_plus radix2 1). change (bpow radix2 1) with 2. assert (1 <= bpow radix2 (prec + 1)) by (change 1 with (bpow radix2 0); apply bpow_le; lia). lra.
    + rewrite V1 in Q. fold X in Q. split; [exact P|]. split; [exact Q|exact RE].
Qed.
(** x < -1 *)
Lemma brA (x : fl) : is_finite x = true -> B2R x < -1 ->
  A (k1 (div N (lit N 1 0) (sub N (lit N 1 0) x)) 
        (add N (div N (mul N (opp N PIf) PIf) (lit N 6 0)) (mul N (nlog N (sub N (lit N 1 0) x)) (sub N (mul N (lit N 5 (-1)) (nlog N (sub N (lit N 1 0) x))) (nlog N (opp N x))))) (lit N 1 0)) (ReLi 2 (B2R x)) (bound (B2R x)).
Proof.
  intros Fx Hx. destruct (int_ok 1 ltac:(lia)) as [F1 V1]. pose proof up as U. pose proof ep as T. pose proof PI2 as P2.
  destruct (onemx x Fx ltac:(lra)) as (Ft & Vt & RE). destruct (opp_r prec emax Hp He L x Fx) as [Fo Vo].
  pose proof (ln_top (opp N x) Fo ltac:(rewrite Vo; lra)) as LT. rewrite Vo in LT.
  pose proof (log_A (opp N x) Fo ltac:(rewrite Vo; lra)) as Am. rewrite Vo in Am.
  set (X := B2R x) in *. set (t := sub N (lit N 1 0) x) in *. set (w := 1 - X) in *. replace (1 + - X) with w in LT by (unfold w; ring).
  assert (Hw : 2 < w) by (unfold w; lra).
  assert (Rt : 2 <= rnd w) by (rewrite <- (rnd_int 2 ltac:(lia)); apply rnd_mono; lra). rewrite <- Vt in Rt, RE.
  destruct (inv_float t Ft ltac:(lra)) as [Fi Vi].
  set (l := ln w) in *. assert (l0 : 69 / 100 <= l). { apply Rle_trans with (ln 2); [interval|]. apply ln_le; lra. }
  destruct (ln_rel2 (B2R t) w u ltac:(lra) ltac:(lra) RE) as [_ Ly].
  pose proof (log_A t Ft ltac:(lra)) as Al0. fold l in Ly.
  assert (ul : 0 <= u * l) by (apply Rmult_le_pos; lra). assert (ul1 : u <= u * l * (100 / 69)) by (apply (Rmult_le_compat_l u) in l0; lra). 
  assert (Al : A (nlog N t) l (8 * (u * l))).
  { destruct Al0 as [Fb Eb]. split; [exact Fb|]. assert (Q : Rabs (ln (B2R t)) <= l + 2 * u). { replace (ln (B2R t)) with (l + (ln (B2R t) - l)) by ring. eapply Rle_trans; [apply Rabs_triang|]. rewrite (Rabs_pos_eq l) by lra. lra. }
    replace (B2R (nlog N t) - l) with ((B2R (nlog N t) - ln (B2R t)) + (ln (B2R t) - l)) by ring. eapply Rle_trans; [apply Rabs_triang|].
    assert (4 * u * Rabs (ln (B2R t)) <= 4 * u * (l + 2 * u)) by (apply Rmult_le_compat_l; lra). pose proof (mle u (/ 2 ^ 17) u u ltac:(lra) ltac:(lra)). lra. }
  clear Al0 Ly.
  assert (m0 : 0 <= ln (- X) <= l). { split; [rewrite <- ln_1; apply ln_le; lra|apply ln_le; unfold w; lra]. } set (m := ln (- X)) in *. rewrite (Rabs_pos_eq m) in Am by lra.
  assert (um : 0 <= u * m <= u * l) by (split; [apply Rmult_le_pos; lra|apply Rmult_le_compat_l; lra]).
  apply (A_weak _ _ _ _ _ (5 * (u * l))) in Am; [|lra].
  destruct half_ok as [Fh Vh]. pose proof (A_self prec emax (lit N 5 (-1)) Fh) as Ah. rewrite Vh in Ah.
  assert (ul2 : u * l <= l / 2 ^ 17) by (unfold Rdiv; rewrite (Rmult_comm l); apply Rmult_le_compat_r; lra).
  pose proof (Amul _ _ _ _ _ _ (/ 2) l l Ah Al ltac:(rewrite Rabs_pos_eq by lra; lra) ltac:(rewrite Rabs_pos_eq by lra; lra) ltac:(lra) ltac:(apply big_ok; lra)) as Ahl.
  apply (A_weak _ _ _ _ _ (6 * (u * l))) in Ahl; [|lra].
  assert (sm : Rabs (/ 2 * l - m) <= / 2 * l) by (apply Rabs_le; lra).
  pose proof (Asub _ _ _ _ _ _ l Ahl Am ltac:(lra) ltac:(apply big_ok; lra)) as Ad.
  apply (A_weak _ _ _ _ _ (13 * (u * l))) in Ad; [|lra].
  set (ll := l * l). assert (Hll : 47 / 100 <= ll <= 10 ^ 10). { unfold ll. pose proof (mle (69/100) l (69/100) l ltac:(lra) ltac:(lra)). pose proof (mle l 20001 l 20001 ltac:(lra) ltac:(lra)). lra. }
  assert (ull0 : 0 <= u * ll) by (apply Rmult_le_pos; lra). assert (ull1 : u <= u * ll * (100 / 47)) by (assert (u * (47 / 100) <= u * ll) by (apply Rmult_le_compat_l; lra); lra).
  assert (ull3 : u * ll <= ll / 2 ^ 17) by (unfold Rdiv; rewrite (Rmult_comm ll); apply Rmult_le_compat_r; lra).
  assert (e1 : l * (13 * (u * l)) = 13 * (u * ll)) by (unfold ll; ring). assert (e2 : / 2 * l * (8 * (u * l)) = 4 * (u * ll)) by (unfold ll; field).
  assert (e3 : 8 * (u * l) * (13 * (u * l)) <= u * ll / 10). { replace (8 * (u * l) * (13 * (u * l))) with (104 * (u * (u * ll))) by (unfold ll; ring). pose proof (mle u (/ 2 ^ 17) (u * ll) (u * ll) ltac:(lra) ltac:(lra)). lra. }
  pose proof (Amul _ _ _ _ _ _ l (/ 2 * l) ll Al Ad ltac:(rewrite Rabs_pos_eq by lra; lra) sm ltac:(rewrite e1, e2; replace (l * (/ 2 * l)) with (/ 2 * ll) by (unfold ll; ring); lra) ltac:(apply big_ok; lra)) as Ap.
  apply (A_weak _ _ _ _ _ (19 * (u * ll))) in Ap; [|rewrite e1, e2; lra].
  assert (Pr0 : Rabs (l * (/ 2 * l - m)) <= / 2 * ll) by (rewrite Rabs_mult, (Rabs_pos_eq l) by lra; replace (/ 2 * ll) with (l * (/ 2 * l)) by (unfold ll; ring); apply Rmult_le_compat_l; lra).
  assert (Pr : Rabs (- (PI * PI / 6) + l * (/ 2 * l - m)) <= 17 / 10 + / 2 * ll) by (eapply Rle_trans; [apply Rabs_triang|]; rewrite Rabs_Ropp, Rabs_pos_eq by lra; lra).
  pose proof (Aadd _ _ _ _ _ _ (2 + ll) c6m Ap ltac:(lra) ltac:(apply big_ok; lra)) as Ar.
  apply (A_weak _ _ _ _ _ (13 * u + 20 * (u * ll))) in Ar; [|lra].
  assert (It : 0 < / B2R t <= / 2) by (split; [apply Rinv_0_lt_compat; lra|apply Rinv_le_contravar; lra]).
  assert (Iw : 0 < / w <= / 2) by (split; [apply Rinv_0_lt_compat; lra|apply Rinv_le_contravar; lra]).
  assert (RI : 0 <= rnd (/ B2R t) <= / 2). { split; [rewrite <- (rnd_int 0 ltac:(lia)); apply rnd_mono; lra|rewrite <- rnd_half; apply rnd_mono; lra]. }
  assert (Ay : A (div N (lit N 1 0) t) (/ w) (2 * u)).
  { split; [exact Fi|]. rewrite Vi. pose proof (rnd_err prec emax Hp (/ B2R t)) as RQ. fold u eta in RQ. rewrite (Rabs_pos_eq (/ B2R t)) in RQ by lra.
    assert (D : Rabs (/ B2R t - / w) <= u * / 2). { replace (/ B2R t - / w) with (- (B2R t - w) * / w * / B2R t) by (field; split; lra). rewrite !Rabs_mult, Rabs_Ropp, !(Rabs_pos_eq (/ _)) by lra.
      apply Rmult_le_compat; [apply Rmult_le_pos; [apply Rabs_pos|lra]|lra| |lra]. apply Rle_trans with (u * w * / w); [apply Rmult_le_compat_r; lra|right; field; lra]. }
    assert (u * / B2R t <= u * / 2) by (apply Rmult_le_compat_l; lra). replace (rnd (/ B2R t) - / w) with ((rnd (/ B2R t) - / B2R t) + (/ B2R t - / w)) by ring. eapply Rle_trans; [apply Rabs_triang|]. lra. }
  pose proof (comb _ _ _ _ _ _ _ (2 + ll) 1 Ay ltac:(rewrite Vi; lra) ltac:(lra) Ar ltac:(lra) ltac:(lra) F1 V1 (or_introl eq_refl)) as C.
  rewrite (eqA X ltac:(lra)). fold w. fold l. fold m. replace (- (PI * PI / 6) + l * (l / 2 - m) + ReLi 2 (/ w)) with (- (PI * PI / 6) + l * (/ 2 * l - m) + 1 * ReLi 2 (/ w)) by (unfold Rdiv; ring).
  eapply A_weak; [exact C|]. apply (bound_eq X _ (K + 50) (1 + ll)); [|lra|].
  - split; [lra|]. rewrite SC1 by (rewrite Rabs_left by lra; lra). rewrite Rabs_left by lra. replace (1 + - X) with w by (unfold w; ring). fold l. fold ll. lra.
  - assert (K * u * B2R (div N (lit N 1 0) t) <= K * u * / 2) by (apply Rmult_le_compat_l; [apply Rmult_le_pos; lra|rewrite Vi; lra]).
    assert (0 <= K * (u * ll)) by (apply Rmult_le_pos; lra). assert (0 <= K * u) by (apply Rmult_le_pos; lra).
    replace ((K + 50) * u * (1 + ll)) with (K * u + 50 * u + K * (u * ll) + 50 * (u * ll)) by ring. replace (u * (2 + ll)) with (2 * u + u * ll) by ring. lra.
Qed.
(** -1 < x < 0 *)
Lemma brB (x : fl) : is_finite x = true -> -1 < B2R x < 0 ->
  A (k1 (div N x (sub N x (lit N 1 0))) (mul N (mul N (lit N (-5) (-1)) (nlog1p N (opp N x))) (nlog1p N (opp N x))) (lit N (-1) 0)) (ReLi 2 (B2R x)) (bound (B2R x)).
Proof.
  intros Fx Hx. destruct (int_ok 1 ltac:(lia)) as [F1 V1]. destruct (int_ok (-1) ltac:(lia)) as [Fm Vm]. pose proof up as U. pose proof ep as T.
  destruct (opp_r prec emax Hp He L x Fx) as [Fo Vo]. set (X := B2R x) in *. set (a := - X). assert (Ha : 0 < a < 1) by (unfold a; lra).
  destruct (sub_r prec emax Hp He ltac:(lia) ltac:(lia) ltac:(lia) L x (lit N 1 0) Fx F1) as [Ft Vt].
  { rewrite V1. fold X. rewrite Rabs_left by lra. apply big_ok. lra. }
  rewrite V1 in Vt. fold X in Vt. replace (X - 1) with (- (1 + a)) in Vt by (unfold a; ring).
  assert (RO : rnd (- (1 + a)) = - rnd (1 + a)) by (apply round_NE_opp). rewrite RO in Vt. set (t := sub N x (lit N 1 0)) in *. set (T1 := rnd (1 + a)) in *.
  assert (RE : Rabs (T1 - (1 + a)) <= u * (1 + a)). { pose proof (rnd_rel1 (1 + a)) as Q. rewrite (Rabs_pos_eq (1 + a)) in Q by lra. apply Q. lra. }
  assert (T1a : 1 <= T1 <= 2) by (split; [rewrite <- (rnd_int 1 ltac:(lia)); apply rnd_mono; lra|rewrite <- (rnd_int 2 ltac:(lia)); apply rnd_mono; lra]).
  assert (T1b : 2 * a <= T1).
  { assert (G : generic_format radix2 fexp (a * bpow radix2 1)). { apply (mult_bpow_pos_exact_FLT radix2 emin prec a 1); [|lia]. apply generic_format_opp. apply (generic_format_B2R prec emax x). }
    change (bpow radix2 1) with 2 in G. rewrite (Rmult_comm 2 a), <- (round_generic radix2 fexp ZnearestE _ G). apply rnd_mono. lra. }
  set (q := a / T1). assert (IT : / 2 <= / T1 <= 1) by (split; [apply Rinv_le_contravar; lra|rewrite <- Rinv_1; apply Rinv_le_contravar; lra]).
  assert (qT : q * T1 = a) by (unfold q; field; lra).
  assert (Hq : 0 < q <= / 2) by (split; nra). assert (Hqa : q <= a) by nra.
  destruct (div_r prec emax Hp He ltac:(lia) ltac:(lia) ltac:(lia) L x t Fx ltac:(rewrite Vt; lra)) as [Fy Vy].
  { rewrite Vt. fold X. replace (X / - T1) with q by (unfold q, a; field; lra). rewrite Rabs_pos_eq by lra. apply big_ok. lra. }
  rewrite Vt in Vy. fold X in Vy. replace (X / - T1) with q in Vy by (unfold q, a; field; lra).
  assert (RY : 0 <= rnd q <= / 2) by (split; [rewrite <- (rnd_int 0 ltac:(lia)); apply rnd_mono; lra|rewrite <- rnd_half; apply rnd_mono; lra]).
  assert (RYa : rnd q <= a). { replace a with (rnd a); [apply rnd_mono; lra|]. apply round_generic; [apply valid_rnd_N|]. apply generic_format_opp. apply (generic_format_B2R prec emax x). }
  set (Y := X / (X - 1)). assert (EY : Y = a / (1 + a)) by (unfold Y, a; field; lra). assert (YT : Y * (1 + a) = a) by (rewrite EY; field; lra). assert (HY : 0 <= Y <= / 2) by (split; nra).
  assert (ua : 0 <= u * a) by (apply Rmult_le_pos; lra).
  assert (Ay : A (div N x t) Y (2 * (u * a) + eta)).
  { split; [exact Fy|]. rewrite Vy. pose proof (rnd_err prec emax Hp q) as RQ. fold u eta in RQ. rewrite (Rabs_pos_eq q) in RQ by lra.
    assert (D : Rabs (q - Y) <= u * a). { replace (q - Y) with (- (T1 - (1 + a)) * (q * / (1 + a))) by (unfold q; rewrite EY; field; lra). rewrite Rabs_mult, Rabs_Ropp, (Rabs_pos_eq (q * _)) by (apply Rmult_le_pos; [lra|left; apply Rinv_0_lt_compat; lra]).
      apply Rle_trans with (u * (1 + a) * (q * / (1 + a))); [apply Rmult_le_compat_r; [apply Rmult_le_pos; [lra|left; apply Rinv_0_lt_compat; lra]|exact RE]|]. replace (u * (1 + a) * (q * / (1 + a))) with (u * q) by (field; lra). apply Rmult_le_compat_l; lra. }
    assert (u * q <= u * a) by (apply Rmult_le_compat_l; lra). replace (rnd q - Y) with ((rnd q - q) + (q - Y)) by ring. eapply Rle_trans; [apply Rabs_triang|]. lra. }
  pose proof (log1p_A (opp N x) Fo ltac:(rewrite Vo; fold X; lra)) as Al. rewrite Vo in Al. fold X in Al. fold a in Al.
  assert (Hl : 0 <= ln (1 + a) <= a). { split; [rewrite <- ln_1; apply ln_le; lra|]. assert (Q := exp_ineq1_le a). rewrite <- (ln_exp a) at 2. apply ln_le; lra. }
  set (l := ln (1 + a)) in *. rewrite (Rabs_pos_eq l) in Al by lra.
  assert (ul : 0 <= u * l <= u * a) by (split; [apply Rmult_le_pos; lra|apply Rmult_le_compat_l; lra]).
  destruct mhalf_ok as [Fh Vh]. pose proof (A_self prec emax (lit N (-5) (-1)) Fh) as Ah. rewrite Vh in Ah.
  assert (ul2 : u * l <= l / 2 ^ 17) by (unfold Rdiv; rewrite (Rmult_comm l); apply Rmult_le_compat_r; lra).
  assert (uea : u * eta <= eta / 2 ^ 17) by (unfold Rdiv; rewrite (Rmult_comm eta); apply Rmult_le_compat_r; lra). assert (ue0 : 0 <= u * eta) by (apply Rmult_le_pos; lra).
  pose proof (Amul _ _ _ _ _ _ (/ 2) l (l + eta) Ah Al ltac:(rewrite Rabs_left by lra; lra) ltac:(rewrite Rabs_pos_eq by lra; lra) ltac:(lra) ltac:(apply big_ok; lra)) as Ahl.
  apply (A_weak _ _ _ _ _ (3 * (u * l) + 3 * eta)) in Ahl; [|rewrite Rmult_plus_distr_l; lra].
  set (ll := l * l). assert (Hll : 0 <= ll <= a) by (unfold ll; pose proof (mle l a l 1 ltac:(lra) ltac:(lra)); lra).
  assert (ull : 0 <= u * ll <= u * a) by (split; [apply Rmult_le_pos; lra|apply Rmult_le_compat_l; lra]).
  assert (ull3 : u * ll <= ll / 2 ^ 17) by (unfold Rdiv; rewrite (Rmult_comm ll); apply Rmult_le_compat_r; lra).
  assert (e1 : / 2 * l * (4 * u * l + 2 * eta) = 2 * (u * ll) + eta * l) by (unfold ll; field).
  assert (e2 : l * (3 * (u * l) + 3 * eta) = 3 * (u * ll) + 3 * (eta * l)) by (unfold ll; ring).
  assert (el : 0 <= eta * l <= eta) by (split; [apply Rmult_le_pos; lra|rewrite <- (Rmult_1_r eta) at 2; apply Rmult_le_compat_l; lra]).
  assert (e3 : (3 * (u * l) + 3 * eta) * (4 * u * l + 2 * eta) <= u * ll / 100 + eta / 100).
  { replace ((3 * (u * l) + 3 * eta) * (4 * u * l + 2 * eta)) with (12 * (u * (u * ll)) + 18 * (u * (eta * l)) + 6 * (eta * eta)) by (unfold ll; ring).
    pose proof (mle u (/ 2 ^ 17) (u * ll) (u * ll) ltac:(lra) ltac:(lra)). pose proof (mle u (/ 2 ^ 17) (eta * l) eta ltac:(lra) ltac:(lra)). pose proof (mle eta (/ 2 ^ 17) eta eta ltac:(lra) ltac:(lra)). lra. }
  assert (E0 : / 2 * l * l = / 2 * ll) by (unfold ll; ring).
  pose proof (Amul _ _ _ _ _ _ (/ 2 * l) l (ll + 6 * eta) Ahl Al ltac:(rewrite Rabs_left1 by lra; lra) ltac:(rewrite Rabs_pos_eq by lra; lra) ltac:(rewrite e1, e2, E0; lra) ltac:(apply big_ok; lra)) as Ar.
  apply (A_weak _ _ _ _ _ (7 * (u * ll) + 6 * eta)) in Ar; [|rewrite e1, e2, (Rmult_plus_distr_l u ll); lra].
  replace (- / 2 * l * l) with (- (/ 2 * ll)) in Ar by (unfold ll; ring).
  pose proof (comb _ _ _ _ _ _ _ (ll + 6 * eta) (-1) Ay ltac:(rewrite Vy; lra) HY Ar ltac:(rewrite Rabs_Ropp, Rabs_pos_eq by lra; lra) ltac:(lra) Fm Vm (or_intror eq_refl)) as C.
  rewrite (eqB X ltac:(lra)). fold Y. replace (1 - X) with (1 + a) by (unfold a; ring). fold l. replace (- / 2 * l * l - ReLi 2 Y) with (- (/ 2 * ll) + -1 * ReLi 2 Y) by (unfold ll; ring).
  eapply A_weak; [exact C|]. apply (bound_eq X _ (K + 50) a); [|lra|].
  - split; [lra|]. eapply Rle_trans; [|apply SC_ge]. rewrite Rabs_left by lra. rewrite Rmin_right by (fold a; lra). fold a. lra.
  - assert (K * u * B2R (div N x t) <= K * u * a) by (apply Rmult_le_compat_l; [apply Rmult_le_pos; lra|rewrite Vy; lra]).
    rewrite (Rmult_plus_distr_l u ll). replace ((K + 50) * u * a) with (K * u * a + 50 * (u * a)) by ring. lra.
Qed.

(** *** all finite arguments *)
Lemma Bltb_R (x y : fl) : is_finite x = true -> is_finite y = true -> ltb N x y = Rlt_bool (B2R x) (B2R y).
Proof. intros F G. exact (Bltb_correct prec emax x y F G). Qed.
Lemma Beqb_R (x y : fl) : is_finite x = true -> is_finite y = true -> eqb N x y = Req_bool (B2R x) (B2R y).
Proof. intros F G. exact (Beqb_correct prec emax x y F G). Qed.
Theorem Li2_acc (x : fl) : is_finite x = true -> A (Li2_shape N PIf k1 x) (ReLi 2 (B2R x)) (bound (B2R x)).
Proof.
  intros Fx. pose proof basel as BAS. cbn [pow] in BAS. rewrite Rmult_1_r in BAS. pose proof up as U. pose proof ep as T.
  destruct (int_ok 1 ltac:(lia)) as [F1 V1]. destruct (int_ok (-1) ltac:(lia)) as [Fm Vm]. destruct (int_ok 0 ltac:(lia)) as [F0 V0]. destruct (int_ok 2 ltac:(lia)) as [F2 V2]. destruct half_ok as [Fh Vh].
  unfold Li2_shape. rewrite !Bltb_R, !Beqb_R, V1, Vm, V0, V2, Vh by assumption.
  assert (B1 : forall X, 1 <= Rabs X -> 10 * u <= bound X).
  { intros X HX. apply (bound_eq X _ 10 1); [|lra|lra]. split; [lra|]. eapply Rle_trans; [|apply SC_ge]. rewrite Rmin_left by lra. lra. }
  case Rlt_bool_spec; intros C1; [exact (brA x Fx C1)|].
  case Req_bool_spec; intros C2. { rewrite C2, Li2_m1, BAS. replace (- (PI * PI / 6) / 2) with (- (PI * PI / 12)) by field. eapply A_weak; [exact c12m|]. apply B1. rewrite Rabs_left; lra. }
  case Rlt_bool_spec; intros C3; [apply (brB x Fx); lra|].
  case Req_bool_spec; intros C4. { rewrite C4, (ReLi_0 2) by lia. split; [exact Fx|]. rewrite C4, Rminus_eq_0, Rabs_R0. unfold bound. rewrite Rabs_R0, Rplus_0_r, ln_1, Rmin_right by lra. rewrite Rmult_0_r, Rplus_0_r, Rmult_0_r. lra. }
  case Rlt_bool_spec; intros C5; [apply (brM x Fx); lra|].
  case Rlt_bool_spec; intros C6; [apply (brC x Fx); lra|].
  case Req_bool_spec; intros C7. { rewrite C7, BAS. eapply A_weak; [exact c6|]. apply B1. rewrite Rabs_R1; lra. }
  case Rlt_bool_spec; intros C8; [apply (brD x Fx); lra|apply (brE x Fx); lra].
Qed.
End E.
