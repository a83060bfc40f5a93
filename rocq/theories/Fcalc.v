(** * Absolute-error calculus for the IEEE instances, any precision

    [A f a e]: the float [f] is finite and within [e] of the real [a]. *)
From Coq Require Import ZArith Reals Bool Lia Lra Psatz List.
From Coquelicot Require Import Rcomplements.
From Flocq Require Import Core Relative IEEE754.BinarySingleNaN.
From Bignums Require Import BigZ.
From Verif Require Import Num NumR NumB NumB_facts Proof_Float Libm Ferr FerrB.
Import ListNotations.
Local Open Scope R_scope.

Section E.
Variables prec emax : Z.
Context (Hp : Prec_gt_0 prec) (He : Prec_lt_emax prec emax).
Hypothesis prec1 : (8 < prec)%Z.
Hypothesis em : (128 <= emax)%Z.
Hypothesis em2 : (142 <= emax + prec)%Z.
Hypothesis pe : (prec <= emax - 4)%Z.
Notation fl := (binary_float prec emax).
Notation emin := (3 - emax - prec)%Z.
Notation fexp := (SpecFloat.fexp prec emax).
Notation rnd := (round radix2 fexp ZnearestE).
Variable L : libm prec emax.
Notation N := (NumB prec emax Hp He L).

(** [checkp]: the checker with an arbitrary test on the resulting bounds *)
Definition checkp (e : ex) (envs : list (list bnd)) (P : bnd -> bool) : bool :=
  let p2 := P2 prec in let '(p, k) := compile prec e in
  ex_eqb (nth k (decomp p []) dflt) e && forallb (lit_ok1 prec) p &&
  forallb (fun env => match run_env p2 p k env with Some b => P (tob b) | None => false end) envs.
Theorem checkp_ok e envs P env (rs : list R) (fs : list fl) :
  checkp e envs P = true -> In env envs -> length rs = length env -> length fs = length env ->
  (forall i, (i < length env)%nat -> rel prec emax (nth i env (Bnd 0 0 0)) (nth i rs 0) (nth i fs (B754_zero false))) ->
  exists b, P b = true /\ rel prec emax b (evalR (fun i => nth i rs 0) e) (evalN N (fun i => nth i fs (B754_zero false)) e).
Proof.
  intros C I Lr Lf H. unfold checkp in C. cbv zeta in C. destruct (compile prec e) as [p k]. rewrite !andb_true_iff in C. destruct C as [[C1 C3] C]. rewrite forallb_forall in C. specialize (C _ I).
  unfold run_env in C. cbv zeta in C. set (be' := fun i => nth i (map ofb env) (BB BigZ.zero BigZ.zero BigZ.zero)) in *. apply ex_eqb_eq in C1.
  assert (HE : forall i, rel prec emax (tob (be' i)) (nth i rs 0) (nth i fs (B754_zero false))).
  { intros i. destruct (Nat.lt_ge_cases i (length env)) as [G|G].
    + unfold be'. rewrite (nth_indep _ _ (ofb (Bnd 0 0 0))) by (rewrite map_length; exact G). rewrite map_nth, tob_ofb. apply H. exact G.
    + unfold be'. rewrite !nth_overflow by (rewrite ?map_length; lia). apply rel0. }
  pose proof (run_ok prec emax Hp He ltac:(lia) em em2 L (P2 prec) ltac:(unfold P2; apply BigZ.spec_of_Z) be' _ _ HE p [] [] C3 ltac:(intros [|i] b Hb; discriminate)) as R.
  destruct (nth k (run (P2 prec) be' p []) None) as [b|] eqn:Q; [|discriminate]. specialize (R _ _ Q). rewrite C1 in R. exists (tob b). split; [exact C|exact R].
Qed.
(** error at most E, value in [l,h]; all in units of 2^-140 *)
Definition within (l h E : Z) (b : bnd) : bool := ((l <=? lo b) && (hi b <=? h) && (er b <=? E))%Z.

Lemma bp2 (p : positive) : bpow radix2 (Zneg p) = / 2 ^ Pos.to_nat p.
Proof. change (Zneg p) with (Z.opp (Zpos p)). rewrite bpow_opp, bpow_powerRZ. reflexivity. Qed.
Definition u : R := bpow radix2 (- prec).
Definition eta : R := bpow radix2 (emin - 1).
Definition BIG : R := bpow radix2 (emax - 2).
Lemma u_pos : 0 < u. Proof. apply bpow_gt_0. Qed.
Lemma eta_pos : 0 < eta. Proof. apply bpow_gt_0. Qed.
Lemma eta_u : eta <= u / 2 ^ 120.
Proof.
  unfold eta, u. assert (E : / 2 ^ 120 = bpow radix2 (-120)) by (rewrite bp2; reflexivity).
  unfold Rdiv. rewrite E, <- bpow_plus. apply bpow_le. lia.
Qed.
Lemma u_small : u <= / 2 ^ 9.
Proof. unfold u. assert (E : / 2 ^ 9 = bpow radix2 (-9)) by (rewrite bp2; reflexivity). rewrite E. apply bpow_le. lia. Qed.
Lemma BIG_ge : 2 ^ 126 <= BIG.
Proof. unfold BIG. assert (E : 2 ^ 126 = bpow radix2 126) by (rewrite bpow_powerRZ; reflexivity). rewrite E. apply bpow_le. lia. Qed.

Lemma rnd_lt r : Rabs r <= BIG -> Rabs (rnd r) < bpow radix2 emax.
Proof.
  intros H. eapply Rle_lt_trans; [apply (rnd_le prec emax Hp He ltac:(lia) r (emax - 2)); [lia|exact H]|]. apply bpow_lt. lia.
Qed.
Definition A (f : fl) (a e : R) : Prop := is_finite f = true /\ Rabs (B2R f - a) <= e.
Lemma A_weak f a e e' : A f a e -> e <= e' -> A f a e'.
Proof. intros [F H] G. split; [exact F|lra]. Qed.
Lemma A_rnd f b a e M : is_finite f = true -> B2R f = rnd b -> Rabs (b - a) <= e -> Rabs b <= M -> A f a (e + u * M + eta).
Proof.
  intros F E H HM. split; [exact F|]. rewrite E. pose proof (rnd_err prec emax Hp b) as R. fold u eta in R.
  assert (u * Rabs b <= u * M) by (apply Rmult_le_compat_l; [left; apply u_pos|exact HM]).
  replace (rnd b - a) with ((rnd b - b) + (b - a)) by ring. eapply Rle_trans; [apply Rabs_triang|]. lra.
Qed.
Lemma add_r x y : is_finite x = true -> is_finite y = true -> Rabs (B2R x + B2R y) <= BIG -> is_finite (add N x y) = true /\ B2R (add N x y) = rnd (B2R x + B2R y).
Proof.
  intros Fx Fy H. pose proof (Bplus_correct prec emax Hp He mode_NE x y Fx Fy) as K. cbn [round_mode] in K. rewrite Rlt_bool_true in K by (apply rnd_lt; exact H). destruct K as (P & Q & _). split; assumption.
Qed.
Lemma sub_r x y : is_finite x = true -> is_finite y = true -> Rabs (B2R x - B2R y) <= BIG -> is_finite (sub N x y) = true /\ B2R (sub N x y) = rnd (B2R x - B2R y).
Proof.
  intros Fx Fy H. pose proof (Bminus_correct prec emax Hp He mode_NE x y Fx Fy) as K. cbn [round_mode] in K. rewrite Rlt_bool_true in K by (apply rnd_lt; exact H). destruct K as (P & Q & _). split; assumption.
Qed.
Lemma mul_r x y : is_finite x = true -> is_finite y = true -> Rabs (B2R x * B2R y) <= BIG -> is_finite (mul N x y) = true /\ B2R (mul N x y) = rnd (B2R x * B2R y).
Proof.
  intros Fx Fy H. pose proof (Bmult_correct prec emax Hp He mode_NE x y) as K. cbn [round_mode] in K. rewrite Rlt_bool_true in K by (apply rnd_lt; exact H). destruct K as (P & Q & _). rewrite Fx, Fy in Q. split; assumption.
Qed.
Lemma div_r x y : is_finite x = true -> B2R y <> 0 -> Rabs (B2R x / B2R y) <= BIG -> is_finite (div N x y) = true /\ B2R (div N x y) = rnd (B2R x / B2R y).
Proof.
  intros Fx Ny H. pose proof (Bdiv_correct prec emax Hp He mode_NE x y Ny) as K. cbn [round_mode] in K. rewrite Rlt_bool_true in K by (apply rnd_lt; exact H). destruct K as (P & Q & _). rewrite Fx in Q. split; assumption.
Qed.
Lemma opp_r x : is_finite x = true -> is_finite (opp N x) = true /\ B2R (opp N x) = - B2R x.
Proof. intros F. change (opp N x) with (Bopp x). rewrite is_finite_Bopp, B2R_Bopp. split; [exact F|reflexivity]. Qed.
Lemma A_opp f a e : A f a e -> A (opp N f) (- a) e.
Proof. intros [F H]. destruct (opp_r f F) as [F' E]. split; [exact F'|]. rewrite E. replace (- B2R f - - a) with (- (B2R f - a)) by ring. rewrite Rabs_Ropp. exact H. Qed.
Lemma A_add f g a b e1 e2 M : A f a e1 -> A g b e2 -> Rabs (a + b) + e1 + e2 <= M -> M <= BIG -> A (add N f g) (a + b) (e1 + e2 + u * M + eta).
Proof.
  intros [F1 E1] [F2 E2] H HM.
  assert (D : Rabs (B2R f + B2R g - (a + b)) <= e1 + e2) by (replace (B2R f + B2R g - (a + b)) with ((B2R f - a) + (B2R g - b)) by ring; eapply Rle_trans; [apply Rabs_triang|]; lra).
  assert (B : Rabs (B2R f + B2R g) <= M). { replace (B2R f + B2R g) with ((B2R f + B2R g - (a + b)) + (a + b)) by ring. eapply Rle_trans; [apply Rabs_triang|]. lra. }
  destruct (add_r f g F1 F2) as [P Q]; [lra|]. exact (A_rnd _ _ _ _ _ P Q D B).
Qed.
Lemma A_sub f g a b e1 e2 M : A f a e1 -> A g b e2 -> Rabs (a - b) + e1 + e2 <= M -> M <= BIG -> A (sub N f g) (a - b) (e1 + e2 + u * M + eta).
Proof.
  intros [F1 E1] [F2 E2] H HM.
  assert (D : Rabs (B2R f - B2R g - (a - b)) <= e1 + e2) by (replace (B2R f - B2R g - (a - b)) with ((B2R f - a) + - (B2R g - b)) by ring; eapply Rle_trans; [apply Rabs_triang|]; rewrite Rabs_Ropp; lra).
  assert (B : Rabs (B2R f - B2R g) <= M). { replace (B2R f - B2R g) with ((B2R f - B2R g - (a - b)) + (a - b)) by ring. eapply Rle_trans; [apply Rabs_triang|]. lra. }
  destruct (sub_r f g F1 F2) as [P Q]; [lra|]. exact (A_rnd _ _ _ _ _ P Q D B).
Qed.
Lemma A_mul f g a b e1 e2 X Y M : A f a e1 -> A g b e2 -> Rabs a <= X -> Rabs b <= Y -> X * Y + X * e2 + Y * e1 + e1 * e2 <= M -> M <= BIG ->
  A (mul N f g) (a * b) (X * e2 + Y * e1 + e1 * e2 + u * M + eta).
Proof.
  intros [F1 E1] [F2 E2] HA HB H HM. pose proof (Rabs_pos (B2R f - a)). pose proof (Rabs_pos (B2R g - b)). pose proof (Rabs_pos a). pose proof (Rabs_pos b).
  assert (D : Rabs (B2R f * B2R g - a * b) <= X * e2 + Y * e1 + e1 * e2).
  { replace (B2R f * B2R g - a * b) with (a * (B2R g - b) + (b * (B2R f - a) + (B2R f - a) * (B2R g - b))) by ring.
    eapply Rle_trans; [apply Rabs_triang|]. rewrite Rabs_mult. assert (Rabs a * Rabs (B2R g - b) <= X * e2) by (apply Rmult_le_compat; assumption).
    assert (Rabs (b * (B2R f - a) + (B2R f - a) * (B2R g - b)) <= Y * e1 + e1 * e2); [|lra]. eapply Rle_trans; [apply Rabs_triang|]. rewrite !Rabs_mult.
    apply Rplus_le_compat; apply Rmult_le_compat; assumption. }
  assert (B : Rabs (B2R f * B2R g) <= M). { replace (B2R f * B2R g) with ((B2R f * B2R g - a * b) + a * b) by ring. eapply Rle_trans; [apply Rabs_triang|]. rewrite (Rabs_mult a b).
    assert (Rabs a * Rabs b <= X * Y) by (apply Rmult_le_compat; assumption). lra. }
  destruct (mul_r f g F1 F2) as [P Q]; [lra|]. exact (A_rnd _ _ _ _ _ P Q D B).
Qed.
(** division: |b| >= m > e2 *)
Lemma A_div f g a b e1 e2 X m E M : A f a e1 -> A g b e2 -> Rabs a <= X -> 0 < m -> m <= Rabs b - e2 -> e1 / m + X * e2 / (m * m) <= E -> X / m + E <= M -> M <= BIG ->
  A (div N f g) (a / b) (E + u * M + eta).
Proof.
  intros [F1 E1] [F2 E2] HA Hm Hb HE H HM. pose proof (Rabs_pos (B2R f - a)). pose proof (Rabs_pos (B2R g - b)) as G0. pose proof (Rabs_pos a).
  assert (Gm : m <= Rabs (B2R g)). { assert (Rabs b <= Rabs (B2R g) + Rabs (B2R g - b)); [|lra]. replace b with (B2R g + - (B2R g - b)) at 1 by ring. eapply Rle_trans; [apply Rabs_triang|]. rewrite Rabs_Ropp. lra. }
  assert (Bm : m <= Rabs b) by lra. assert (N1 : B2R g <> 0) by (intros Z; rewrite Z, Rabs_R0 in Gm; lra). assert (N2 : b <> 0) by (intros Z; rewrite Z, Rabs_R0 in Bm; lra).
  assert (D : Rabs (B2R f / B2R g - a / b) <= E).
  { replace (B2R f / B2R g - a / b) with ((B2R f - a) / B2R g + - (a * (B2R g - b) / (B2R g * b))) by (field; auto). eapply Rle_trans; [apply Rabs_triang|]. rewrite Rabs_Ropp.
    unfold Rdiv. rewrite !Rabs_mult, !Rabs_inv, Rabs_mult. eapply Rle_trans; [|exact HE]. unfold Rdiv. apply Rplus_le_compat.
    - apply Rmult_le_compat; [assumption|left; apply Rinv_0_lt_compat; lra|exact E1|apply Rinv_le_contravar; assumption].
    - apply Rmult_le_compat; [apply Rmult_le_pos; assumption|left; apply Rinv_0_lt_compat; nra|apply Rmult_le_compat; assumption|apply Rinv_le_contravar; [nra|apply Rmult_le_compat; lra]]. }
  assert (Q : Rabs (a / b) <= X / m). { unfold Rdiv. rewrite Rabs_mult, Rabs_inv. apply Rmult_le_compat; [assumption|left; apply Rinv_0_lt_compat; lra|exact HA|apply Rinv_le_contravar; assumption]. }
  assert (B : Rabs (B2R f / B2R g) <= M). { replace (B2R f / B2R g) with ((B2R f / B2R g - a / b) + a / b) by ring. eapply Rle_trans; [apply Rabs_triang|]. lra. }
  destruct (div_r f g F1 N1) as [P Q']; [lra|]. exact (A_rnd _ _ _ _ _ P Q' D B).
Qed.
(** an exact float *)
Lemma A_self f : is_finite f = true -> A f (B2R f) 0.
Proof. intros F. split; [exact F|]. rewrite Rminus_eq_0, Rabs_R0. lra. Qed.
Lemma A_int z : (Z.abs z <= 2 ^ prec)%Z -> A (lit N z 0) (IZR z) 0.
Proof. intros H. destruct (litZ_exact prec emax Hp He ltac:(lia) z H) as [P Q]. change (lit N z 0) with (blit prec emax Hp He z 0). split; [exact Q|]. rewrite P, Rminus_eq_0, Rabs_R0. lra. Qed.
(** a libm result at a float argument *)
Lemma A_close f v : close f v -> A f v (4 * u * Rabs v + 2 * eta).
Proof.
  intros [F H]. split; [exact F|]. eapply Rle_trans; [exact H|]. right. unfold u, eta. replace (2 - prec)%Z with (2 + - prec)%Z by ring. replace emin with (1 + (emin - 1))%Z at 1 by ring. rewrite !bpow_plus. change (bpow radix2 2) with 4. change (bpow radix2 1) with 2. ring.
Qed.
End E.
Lemma ln_rel t w d : 0 < w -> 0 <= d <= / 4 -> Rabs (t - w) <= d * w -> 0 < t /\ Rabs (ln t - ln w) <= 4 / 3 * d.
Proof.
  intros Hw Hd H. apply Rabs_le_between in H. assert (Ht : 0 < t) by nra. split; [exact Ht|].
  assert (A : forall a b, 0 < a -> 0 < b -> ln a - ln b <= (a - b) / b).
  { intros a b Ha Hb. rewrite <- ln_div by assumption. assert (E : ln (a / b) <= a / b - 1).
    { assert (0 < a / b) by (apply Rdiv_lt_0_compat; assumption).
      assert (X := exp_ineq1_le (a / b - 1)). rewrite <- (ln_exp (a / b - 1)). apply ln_le; lra. }
    replace ((a - b) / b) with (a / b - 1) by (field; lra). exact E. }
  apply Rabs_le. pose proof (A t w Ht Hw) as U. pose proof (A w t Hw Ht) as V. split.
  - enough ((w - t) / t <= 4 / 3 * d) by lra. apply (Rmult_le_reg_r t); [exact Ht|]. unfold Rdiv at 1. rewrite Rmult_assoc, Rinv_l by lra. nra.
  - enough ((t - w) / w <= d) by lra. apply (Rmult_le_reg_r w); [exact Hw|]. unfold Rdiv. rewrite Rmult_assoc, Rinv_l by lra. lra.
Qed.
Section S.
Variables prec emax : Z.
Hypothesis prec1 : (16 < prec)%Z.
Hypothesis em : (128 <= emax)%Z.
Hypothesis em2 : (142 <= emax + prec)%Z.
Lemma u17 : 0 < u prec <= / 2 ^ 17.
Proof. clear em em2. split; [apply bpow_gt_0|]. unfold u. assert (E : / 2 ^ 17 = bpow radix2 (-17)) by (rewrite bp2; reflexivity). rewrite E. apply bpow_le. lia. Qed.
Lemma eta30 : 0 < eta prec emax <= u prec / 10 ^ 30.
Proof.
  pose proof u17 as [U _]. split; [apply bpow_gt_0|]. eapply Rle_trans; [apply (eta_u prec emax); lia|]. apply Rmult_le_compat_l; [lra|]. apply Rinv_le_contravar; [apply pow_lt; lra|]. apply Rle_trans with (2 ^ 100); [lra|apply Rle_pow; [lra|lia]].
Qed.
Lemma BIG100 : 2 ^ 100 <= BIG emax.
Proof. clear prec1 em2. eapply Rle_trans; [|apply BIG_ge; lia]. apply Rle_pow; [lra|lia]. Qed.
End S.
