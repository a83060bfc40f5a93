(** * Error of single IEEE double operations: finite operands, no overflow *)
From Coq Require Import ZArith Reals Bool Lia Lra Psatz.
From Flocq Require Import Core Relative IEEE754.BinarySingleNaN.
From Verif Require Import Num NumR NumB NumB_facts Libm.
Local Open Scope R_scope.

Notation rnd64 := (round radix2 (SpecFloat.fexp 53 1024) ZnearestE).
(** unit roundoff and smallest half-subnormal *)
Definition u64 : R := bpow radix2 (-53).
Definition s64 : R := bpow radix2 (-1075).
(** the largest finite double *)
Definition big64 : R := F2R (Float radix2 (2 ^ 53 - 1) 971).
Lemma rnd64_err r : Rabs (rnd64 r - r) <= u64 * Rabs r + s64.
Proof. exact (rnd_err 53 1024 Hp53 r). Qed.
Lemma rnd64_err_norm r : bpow radix2 (-1022) <= Rabs r -> Rabs (rnd64 r - r) <= u64 * Rabs r.
Proof.
  intros H. pose proof (relative_error_N_FLT radix2 (-1074) 53 Hp53 (fun t => negb (Z.even t)) r H) as K.
  eapply Rle_trans; [exact K|]. unfold u64. assert (E : bpow radix2 (- (53)) = / 2 * bpow radix2 (- (53) + 1)) by (rewrite (bpow_plus radix2 (- (53)) 1); change (bpow radix2 1) with 2; field).
  rewrite <- E. right. reflexivity.
Qed.
Lemma big64_lt : big64 < bpow radix2 1024.
Proof.
  unfold big64, F2R. cbn [Fnum Fexp]. change 1024%Z with (53 + 971)%Z. rewrite bpow_plus. apply Rmult_lt_compat_r; [apply bpow_gt_0|].
  rewrite <- (IZR_Zpower radix2 53) by lia. apply IZR_lt. reflexivity.
Qed.
Lemma rnd64_lt r : Rabs r <= big64 -> Rabs (rnd64 r) < bpow radix2 1024.
Proof.
  intros H. apply Rle_lt_trans with big64; [|apply big64_lt].
  apply abs_round_le_generic; [apply (fexp_correct 53 1024 Hp53)|apply valid_rnd_N| |exact H].
  apply (generic_format_FLT radix2 (-1074) 53). exists (Float radix2 (2 ^ 53 - 1) 971); [reflexivity|vm_compute; reflexivity|vm_compute; discriminate].
Qed.
Definition okf (f : f64) (r : R) : Prop := is_finite f = true /\ B2R f = rnd64 r.
Section Ops.
Variable L : libm 53 1024.
Lemma lit_okf m e : Rabs (litR m e) <= big64 -> okf (lit (B64 L) m e) (litR m e).
Proof.
  intros H. destruct (blit_correct 53 1024 Hp53 He53 ltac:(lia) m e (rnd64_lt _ H)) as [A B]. split; assumption.
Qed.
Lemma ofZ_okf z : Rabs (IZR z) <= big64 -> okf (ofZ (B64 L) z) (IZR z).
Proof.
  intros H. destruct (bnorm_correct 53 1024 Hp53 He53 z 0) as [A B].
  - rewrite F2R_IZR. apply rnd64_lt. exact H.
  - rewrite F2R_IZR in A. split; assumption.
Qed.
Variables x y : f64.
Hypothesis Hx : is_finite x = true.
Hypothesis Hy : is_finite y = true.
Lemma add_okf : Rabs (B2R x + B2R y) <= big64 -> okf (add (B64 L) x y) (B2R x + B2R y).
Proof.
  intros H. pose proof (Bplus_correct 53 1024 Hp53 He53 mode_NE x y Hx Hy) as K. cbn [round_mode] in K. rewrite Rlt_bool_true in K by (apply rnd64_lt; exact H).
  destruct K as (A & B & _). split; assumption.
Qed.
Lemma sub_okf : Rabs (B2R x - B2R y) <= big64 -> okf (sub (B64 L) x y) (B2R x - B2R y).
Proof.
  intros H. pose proof (Bminus_correct 53 1024 Hp53 He53 mode_NE x y Hx Hy) as K. cbn [round_mode] in K. rewrite Rlt_bool_true in K by (apply rnd64_lt; exact H).
  destruct K as (A & B & _). split; assumption.
Qed.
Lemma mul_okf : Rabs (B2R x * B2R y) <= big64 -> okf (mul (B64 L) x y) (B2R x * B2R y).
Proof.
  intros H. pose proof (Bmult_correct 53 1024 Hp53 He53 mode_NE x y) as K. cbn [round_mode] in K. rewrite Rlt_bool_true in K by (apply rnd64_lt; exact H).
  destruct K as (A & B & _). rewrite Hx, Hy in B. split; assumption.
Qed.
Lemma div_okf : B2R y <> 0 -> Rabs (B2R x / B2R y) <= big64 -> okf (div (B64 L) x y) (B2R x / B2R y).
Proof.
  intros N H. pose proof (Bdiv_correct 53 1024 Hp53 He53 mode_NE x y N) as K. cbn [round_mode] in K. rewrite Rlt_bool_true in K by (apply rnd64_lt; exact H).
  destruct K as (A & B & _). rewrite Hx in B. split; assumption.
Qed.
End Ops.
Lemma okf_err f r : okf f r -> Rabs (B2R f - r) <= u64 * Rabs r + s64.
Proof. intros [_ ->]. apply rnd64_err. Qed.
Lemma okf_exact f r : okf f r -> generic_format radix2 (SpecFloat.fexp 53 1024) r -> B2R f = r.
Proof. intros [_ ->] G. apply round_generic; [apply valid_rnd_N|exact G]. Qed.
Lemma gf_int z : (Z.abs z <= 2 ^ 53)%Z -> generic_format radix2 (SpecFloat.fexp 53 1024) (IZR z).
Proof.
  intros H. destruct (Z.eq_dec (Z.abs z) (2 ^ 53)) as [E|E].
  - assert (G : generic_format radix2 (SpecFloat.fexp 53 1024) (bpow radix2 53)) by (apply generic_format_bpow; vm_compute; discriminate).
    assert (B : bpow radix2 53 = IZR (2 ^ 53)) by reflexivity. destruct (Z.abs_spec z) as [[_ A]|[_ A]].
    + replace z with (2 ^ 53)%Z by lia. rewrite <- B. exact G.
    + replace z with (- 2 ^ 53)%Z by lia. rewrite opp_IZR, <- B. apply generic_format_opp. exact G.
  - apply (generic_format_FLT radix2 (-1074) 53). exists (Float radix2 z 0); [unfold F2R; cbn; ring| cbn; lia|cbn; lia].
Qed.
Lemma bpow_nat n : bpow radix2 (Z.of_nat n) = 2 ^ n.
Proof. rewrite <- (IZR_Zpower radix2 (Z.of_nat n)) by lia. rewrite pow_IZR. reflexivity. Qed.
Lemma bpow_neg n : bpow radix2 (- Z.of_nat n) = / 2 ^ n.
Proof. rewrite bpow_opp, bpow_nat. reflexivity. Qed.
Lemma u64_val : u64 = / 2 ^ 53. Proof. exact (bpow_neg 53). Qed.
Lemma s64_small : 0 < s64 <= / 2 ^ 200.
Proof.
  split; [apply bpow_gt_0|]. unfold s64. eapply Rle_trans; [apply (bpow_le radix2 (-1075) (-200)); lia|]. right. exact (bpow_neg 200).
Qed.
Lemma big64_ge : 2 ^ 200 <= big64.
Proof.
  rewrite <- (bpow_nat 200). unfold big64, F2R. cbn [Fnum Fexp]. apply Rle_trans with (1 * bpow radix2 971).
  - rewrite Rmult_1_l. apply bpow_le. lia.
  - apply Rmult_le_compat_r; [apply bpow_ge_0|]. apply (IZR_le 1). discriminate.
Qed.
(** ** running error bounds: f is finite and within e of the real a *)
Definition ap (f : f64) (a e : R) : Prop := is_finite f = true /\ Rabs (B2R f - a) <= e.
Lemma ap_abs f a e : ap f a e -> Rabs (B2R f) <= Rabs a + e.
Proof. intros [_ H]. pose proof (Rabs_triang (B2R f - a) a) as T. replace (B2R f - a + a) with (B2R f) in T by ring. lra. Qed.
Lemma ap_weak f a e e' : ap f a e -> e <= e' -> ap f a e'.
Proof. intros [F H] G. split; [exact F|lra]. Qed.
Lemma ap_okf f a b e M : okf f b -> Rabs (b - a) <= e -> Rabs b <= M -> ap f a (e + u64 * M + s64).
Proof.
  intros O H HM. split; [exact (proj1 O)|]. pose proof (okf_err _ _ O) as E. pose proof (Rabs_triang (B2R f - b) (b - a)) as T. replace (B2R f - b + (b - a)) with (B2R f - a) in T by ring.
  assert (u64 * Rabs b <= u64 * M) by (apply Rmult_le_compat_l; [apply bpow_ge_0|exact HM]). lra.
Qed.
Section Ap.
Variable L : libm 53 1024.
Lemma ap_lit m e M : Rabs (litR m e) <= M -> M <= 2 ^ 200 -> ap (lit (B64 L) m e) (litR m e) (u64 * M + s64).
Proof.
  intros H HM. pose proof big64_ge. assert (O : okf (lit (B64 L) m e) (litR m e)) by (apply lit_okf; lra). eapply ap_weak; [apply (ap_okf _ (litR m e) _ 0 M O); [rewrite Rminus_eq_0, Rabs_R0; lra|exact H]|lra].
Qed.
Lemma ap_add f g a b e1 e2 M : ap f a e1 -> ap g b e2 -> Rabs (a + b) + e1 + e2 <= M -> M <= 2 ^ 200 -> ap (add (B64 L) f g) (a + b) (e1 + e2 + u64 * M + s64).
Proof.
  intros A1 A2 H HM. pose proof big64_ge. destruct A1 as [F1 E1]. destruct A2 as [F2 E2].
  assert (D : Rabs (B2R f + B2R g - (a + b)) <= e1 + e2) by (replace (B2R f + B2R g - (a + b)) with ((B2R f - a) + (B2R g - b)) by ring; eapply Rle_trans; [apply Rabs_triang|]; lra).
  assert (B : Rabs (B2R f + B2R g) <= M) by (pose proof (Rabs_triang (B2R f + B2R g - (a + b)) (a + b)) as T; replace (B2R f + B2R g - (a + b) + (a + b)) with (B2R f + B2R g) in T by ring; lra).
  apply (ap_okf _ _ (B2R f + B2R g)); [apply add_okf; try assumption; lra|exact D|exact B].
Qed.
Lemma ap_sub f g a b e1 e2 M : ap f a e1 -> ap g b e2 -> Rabs (a - b) + e1 + e2 <= M -> M <= 2 ^ 200 -> ap (sub (B64 L) f g) (a - b) (e1 + e2 + u64 * M + s64).
Proof.
  intros A1 A2 H HM. pose proof big64_ge. destruct A1 as [F1 E1]. destruct A2 as [F2 E2].
  assert (D : Rabs (B2R f - B2R g - (a - b)) <= e1 + e2) by (replace (B2R f - B2R g - (a - b)) with ((B2R f - a) + - (B2R g - b)) by ring; eapply Rle_trans; [apply Rabs_triang|]; rewrite Rabs_Ropp; lra).
  assert (B : Rabs (B2R f - B2R g) <= M) by (pose proof (Rabs_triang (B2R f - B2R g - (a - b)) (a - b)) as T; replace (B2R f - B2R g - (a - b) + (a - b)) with (B2R f - B2R g) in T by ring; lra).
  apply (ap_okf _ _ (B2R f - B2R g)); [apply sub_okf; try assumption; lra|exact D|exact B].
Qed.
Lemma ap_mul f g a b e1 e2 A B M : ap f a e1 -> ap g b e2 -> Rabs a <= A -> Rabs b <= B -> A * B + A * e2 + B * e1 + e1 * e2 <= M -> M <= 2 ^ 200 ->
  ap (mul (B64 L) f g) (a * b) (A * e2 + B * e1 + e1 * e2 + u64 * M + s64).
Proof.
  intros A1 A2 HA HB H HM. pose proof big64_ge. destruct A1 as [F1 E1]. destruct A2 as [F2 E2]. pose proof (Rabs_pos (B2R f - a)). pose proof (Rabs_pos (B2R g - b)). pose proof (Rabs_pos a). pose proof (Rabs_pos b).
  assert (D : Rabs (B2R f * B2R g - a * b) <= A * e2 + B * e1 + e1 * e2).
  { replace (B2R f * B2R g - a * b) with (a * (B2R g - b) + (b * (B2R f - a) + (B2R f - a) * (B2R g - b))) by ring. eapply Rle_trans; [apply Rabs_triang|].
    assert (T1 : Rabs (a * (B2R g - b)) <= A * e2) by (rewrite Rabs_mult; apply Rmult_le_compat; lra).
    assert (T2 : Rabs (b * (B2R f - a) + (B2R f - a) * (B2R g - b)) <= B * e1 + e1 * e2).
    { eapply Rle_trans; [apply Rabs_triang|]. rewrite !Rabs_mult. apply Rplus_le_compat; apply Rmult_le_compat; lra. } lra. }
  assert (BB : Rabs (B2R f * B2R g) <= M).
  { assert (T2 : Rabs (a * b) <= A * B) by (rewrite Rabs_mult; apply Rmult_le_compat; lra).
    pose proof (Rabs_triang (B2R f * B2R g - a * b) (a * b)) as T. replace (B2R f * B2R g - a * b + a * b) with (B2R f * B2R g) in T by ring. lra. }
  apply (ap_okf _ _ (B2R f * B2R g)); [apply mul_okf; try assumption; lra|exact D|exact BB].
Qed.
End Ap.
