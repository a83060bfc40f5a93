(** * C41: the Fortran functions return the values of the C++ functions *)
From Coq Require Import ZArith Reals List Bool Lra Lia Psatz.
From Coquelicot Require Import Coquelicot.
From Flocq Require Import Core IEEE754.BinarySingleNaN.
From Verif Require Import Num NumR NumB Proof_Float Spec Eval_R Consts Polylog Model_LiR Model_Cl16 Model_C Model_F Proof_Li2 Properties_B Properties_C Properties_N Properties_O.
Import ListNotations.
Local Open Scope R_scope.

(** bit for bit the same operations as the C functions *)
Theorem C41_same_operations (N : num) x : fst (f_dcl3 N x) = c_cl3_d N x /\ fst (f_dcl5 N x) = c_cl5_d N x.
Proof.
  split; [unfold f_dcl3, c_cl3_d|unfold f_dcl5, c_cl5_d]; cbv zeta; repeat match goal with |- context [if ?b then _ else _] => destruct b end; reflexivity.
Qed.

(** laws that hold in exact arithmetic *)
Record exact_laws (N : num) : Prop := {
  mulA : forall a b c, mul N a (mul N b c) = mul N (mul N a b) c;
  mul_div : forall a b q, mul N a (div N b q) = div N (mul N a b) q;
  opp_lit : forall m k, opp N (lit N m k) = lit N (- m) k;
  opp_mul : forall a b, opp N (mul N a b) = mul N (opp N a) b;
  opp_div : forall a b, opp N (div N a b) = div N (opp N a) b;
  log_1p : forall x, nlog1p N (opp N x) = nlog N (sub N (lit N 1 0) x) }.
Lemma exact_laws_R e : exact_laws (NumR e).
Proof.
  constructor.
  - intros [a|] [b|] [c|]; cbn; try reflexivity. f_equal. ring.
  - intros [a|] [b|] [q|]; cbn; try reflexivity; destruct (Req_EM_T q 0); cbn; try reflexivity. f_equal. unfold Rdiv. ring.
  - intros m k. cbn. f_equal. unfold litR. rewrite Z.mul_opp_l, !opp_IZR. destruct (0 <=? k)%Z; unfold Rdiv; ring.
  - intros [a|] [b|]; cbn; try reflexivity. f_equal. ring.
  - intros [a|] [b|]; cbn; try reflexivity; destruct (Req_EM_T b 0); cbn; try reflexivity. f_equal. unfold Rdiv. ring.
  - intros x. change (lit (NumR e) 1 0) with (Some (litR 1 0)). rewrite litR_int. destruct x as [x|]; cbn; [|reflexivity]. replace (1 - x) with (1 + - x) by ring. destruct (Rlt_dec (-1) (- x)), (Rlt_dec 0 (1 + - x)); try reflexivity; lra.
Qed.
Section Exact.
Variable N : num.
Hypothesis H : exact_laws N.
Ltac ifs := repeat match goal with |- context [if ?b then _ else _] => destruct b end.
Lemma dcl2 x : fst (f_dcl2 N x) = Cl2_d N x.
Proof. unfold f_dcl2, Cl2_d. cbv beta zeta. ifs; cbv iota beta; rewrite ?(mul_div N H), ?(mulA N H); reflexivity. Qed.
Lemma dcl4 x : fst (f_dcl4 N x) = c_cl4_d N x.
Proof. unfold f_dcl4, c_cl4_d. cbv beta zeta. ifs; cbv iota beta; rewrite ?(mul_div N H), ?(mulA N H); reflexivity. Qed.
Lemma dcl6 x : fst (f_dcl6 N x) = Cl6_d N x.
Proof. unfold f_dcl6, Cl6_d. cbv beta zeta. ifs; cbv iota beta; rewrite ?(mul_div N H), ?(mulA N H); reflexivity. Qed.
Lemma dli3 x : fst (f_dli3 N x) = Li3_d N x.
Proof.
  unfold f_dli3, Li3_d. cbv beta zeta. change (li3_neg N) with (fun x => fst (f_dli3_neg N x)). change (li3_pos N) with (fun x => fst (f_dli3_pos N x)). cbv beta.
  rewrite (log_1p N H). ifs; cbv iota beta; rewrite ?(opp_mul N H), ?(opp_lit N H), ?(mulA N H); reflexivity.
Qed.
Lemma dli4_one x : fst (f_dli4_one N x) = li4_one N x.
Proof. unfold f_dli4_one, li4_one. cbv beta zeta. rewrite !(opp_div N H), !(opp_lit N H). reflexivity. Qed.
Lemma dli4 x : fst (f_dli4 N x) = Li4_d N x.
Proof.
  unfold f_dli4, Li4_d. cbv beta zeta. rewrite !dli4_one. change (li4_neg N) with (fun x => fst (f_dli4_neg N x)). change (li4_half N) with (fun x => fst (f_dli4_half N x)). change (li4_mid N) with (fun x => fst (f_dli4_mid N x)). cbv beta.
  ifs; cbv iota beta; cbn [fst]; rewrite ?dli4_one, ?(opp_mul N H), ?(opp_div N H), ?(opp_lit N H); reflexivity.
Qed.
Lemma dli2_shape x : fst (f_dli2 N x) = Li2_shape N (lit N 314159265358979324 (-17)) (k1_d N) x.
Proof.
  unfold f_dli2, Li2_shape, k1_d. cbv beta zeta. rewrite (log_1p N H). ifs; cbv iota beta; cbn [fst]; rewrite ?(opp_mul N H), ?(opp_div N H), ?(opp_mul N H), ?(opp_lit N H), ?(mulA N H), ?(opp_mul N H); reflexivity.
Qed.
End Exact.

(** In exact arithmetic the Fortran functions are the C++ functions (so every accuracy theorem about the latter holds for
    them); dli2 differs in the literal for pi, so its accuracy is stated directly. *)
Theorem C41_values e x :
  fst (f_dcl2 (NumR e) x) = Cl2_d (NumR e) x /\ fst (f_dcl3 (NumR e) x) = Cl3_d (NumR e) x /\ fst (f_dcl4 (NumR e) x) = Cl4_d (NumR e) x /\
  fst (f_dcl5 (NumR e) x) = Cl5_d (NumR e) x /\ fst (f_dcl6 (NumR e) x) = Cl6_d (NumR e) x /\
  fst (f_dli3 (NumR e) x) = Li3_d (NumR e) x /\ fst (f_dli4 (NumR e) x) = Li4_d (NumR e) x.
Proof.
  pose proof (exact_laws_R e) as H. destruct (C41_same_operations (NumR e) x) as [A3 A5].
  destruct (C36_same_operations (NumR e) x) as (_ & _ & B5 & _).
  repeat split.
  - exact (dcl2 (NumR e) H x).
  - rewrite A3. apply (cl3_generic (NumR e)). intros l. change (lit (NumR e) 5 (-1)) with (Some (litR 5 (-1))). change (lit (NumR e) 2 0) with (Some (litR 2 0)). rewrite litR_half, litR_int.
    destruct l as [l|]; [|cbn; destruct (Req_EM_T 2 0); reflexivity]. change (mul (NumR e) (Some (/ 2)) (Some l)) with (Some (/ 2 * l)). change (div (NumR e) (Some l) (Some 2)) with (odiv (Some l) (Some 2)). rewrite odiv_some by lra. f_equal. field.
  - rewrite (dcl4 (NumR e) H x). apply C36_cl4_exact.
  - rewrite A5. exact B5.
  - exact (dcl6 (NumR e) H x).
  - exact (dli3 (NumR e) H x).
  - exact (dli4 (NumR e) H x).
Qed.
Theorem C41_dli2_accuracy : forall x : R, exists v, fst (f_dli2 RD (Some x)) = Some v /\ Rabs (v - ReLi 2 x) <= 2 / 10 ^ 16 * Rmin 1 (Rabs x).
Proof.
  intros x. rewrite (dli2_shape RD (exact_laws_R eps_d) (Some x)).
  apply (shape_accuracy eps_d _ _ _ x (101 / 10 ^ 18) (39 / 10 ^ 18 * (63 / 10)) _ (core_d (fun y H => proj1 (d_ok y H))) (fun y H => proj2 (d_ok y H))); try lra.
  apply sq_diff; [|lra]. eapply Rle_trans; [apply PI_lit with (d := 385 / 10 ^ 19)|lra]. change (IZR (10 ^ 17)) with (IZR (10 ^ Z.of_nat 17)). rewrite p10. apply Rabs_le. lra.
Qed.
(** e.g. the complete accuracy statements for dli3 and dli4 *)
Theorem C41_dli3_accuracy : forall x : R, exists v, fst (f_dli3 RD (Some x)) = Some v /\ Rabs (v - ReLi 3 x) <= 3 / 10^16 * Rmin 1 (Rabs x) + 1 / 10^16 * ln (Rmax 1 (Rabs x)).
Proof. intros x. destruct (C41_values eps_d (Some x)) as (_ & _ & _ & _ & _ & E & _). change (NumR eps_d) with RD in E. rewrite E. apply C17_Li3_double_accuracy. Qed.
Theorem C41_dli4_accuracy : forall x : R, exists v, fst (f_dli4 RD (Some x)) = Some v /\ Rabs (v - ReLi 4 x) <= 2 / 10^16 * Rmin 1 (Rabs x) + 4 / 10^17 * (ln (Rmax 1 (Rabs x)))^2.
Proof. intros x. destruct (C41_values eps_d (Some x)) as (_ & _ & _ & _ & _ & _ & E). change (NumR eps_d) with RD in E. rewrite E. apply C18_Li4_double_accuracy. Qed.

(** ** C42: is the function result always set?  [u] is whatever the result variable held on entry. *)
Theorem C42_cdli2_defined_iff (N : num) (z : cpx N) :
  (eqb N (snd z) (lit N 0 0) = false \/ leb N (fst z) (lit N 1 0) = true \/ ltb N (lit N 1 0) (fst z) = true -> forall u u', fst (f_cdli2 N u z) = fst (f_cdli2 N u' z)) /\
  (eqb N (snd z) (lit N 0 0) = true -> leb N (fst z) (lit N 1 0) = false -> ltb N (lit N 1 0) (fst z) = false -> forall u, fst (f_cdli2 N u z) = u).
Proof.
  split.
  - intros D u u'. unfold f_cdli2. cbv zeta. destruct (eqb N (snd z) (lit N 0 0)); [|reflexivity].
    destruct (leb N (fst z) (lit N 1 0)), (ltb N (lit N 1 0) (fst z)); try reflexivity. destruct D as [D|[D|D]]; discriminate D.
  - intros A B C u. unfold f_cdli2. cbv zeta. rewrite A, B, C. reflexivity.
Qed.
(** so for a NaN on the real axis nothing is returned: the caller gets the garbage [u] *)
Theorem C42_cdli2_nan_refuted L s u : fst (f_cdli2 (B64 L) u (B754_nan, B754_zero s)) = u.
Proof. apply C42_cdli2_defined_iff; destruct L; destruct s; vm_compute; reflexivity. Qed.
(** every other double argument gets a value that does not depend on the garbage *)
Theorem C42_cdli2_defined L (z : cpx (B64 L)) : fst z <> B754_nan -> forall u u', fst (f_cdli2 (B64 L) u z) = fst (f_cdli2 (B64 L) u' z).
Proof.
  intros H. apply C42_cdli2_defined_iff. destruct z as [x y]. cbn [fst snd] in *. right.
  destruct (litZ_exact 53 1024 Hp53 He53 ltac:(lia) 1 ltac:(lia)) as [V F].
  change (lit (B64 L) 1 0) with (blit 53 1024 Hp53 He53 1 0). change (leb (B64 L)) with (@Bleb 53 1024). change (ltb (B64 L)) with (@Bltb 53 1024).
  destruct (is_finite x) eqn:FX.
  - rewrite (Bleb_correct 53 1024 _ _ FX F), (Bltb_correct 53 1024 _ _ F FX). destruct (Rle_lt_dec (B2R x) (B2R (blit 53 1024 Hp53 He53 1 0))) as [A|A]; [left; apply Rle_bool_true; exact A|right; apply Rlt_bool_true; exact A].
  - destruct x as [s|[]| |s m e B]; try discriminate FX; [left|right|contradiction]; vm_compute; reflexivity.
Qed.
