(** * C36: the C functions compute the same values as the C++ functions *)
From Coq Require Import ZArith Reals List Bool Lra Lia Psatz.
From Coquelicot Require Import Coquelicot.
From Flocq Require Import Core IEEE754.BinarySingleNaN.
From Interval Require Import Tactic.
From Verif Require Import Num NumR NumB NumB_facts Spec Eval_R Model_LiR Model_Cl16 Model_C Proof_Float Libm Proof_Li2 CvsCpp.
Import ListNotations.
Local Open Scope R_scope.

(** Identical operation for operation: equal in every arithmetic, in particular bit for bit in IEEE arithmetic,
    whatever the mathematical library. *)
Theorem C36_same_operations (N : num) (x : car N) :
  c_cl2_d N x = Cl2_d N x /\ c_cl2_l N x = Cl2_l N x /\
  c_cl5_d N x = Cl5_d N x /\ c_cl5_l N x = Cl5_l N x /\
  c_cl6_d N x = Cl6_d N x /\ c_cl6_l N x = Cl6_l N x /\
  c_li2_f N x = Li2_f N x /\ c_li2_d N x = Li2_d N x /\ c_li3_d N x = Li3_d N x /\ c_li4_d N x = Li4_d N x.
Proof. repeat split; reflexivity. Qed.

(** cl3 divides the logarithm by 2 where Cl3 multiplies it by 0.5 *)
Lemma cl3_generic (N : num) : (forall l, mul N (lit N 5 (-1)) l = div N l (lit N 2 0)) -> forall x, c_cl3_d N x = Cl3_d N x /\ c_cl3_l N x = Cl3_l N x.
Proof.
  intros H x. split.
  - unfold c_cl3_d, Cl3_d. cbv zeta. rewrite H. reflexivity.
  - unfold c_cl3_l, Cl3_l. cbv zeta. rewrite H. reflexivity.
Qed.
Theorem C36_cl3_bits L x : c_cl3_d (B64 L) x = Cl3_d (B64 L) x.
Proof. exact (proj1 (cl3_generic (B64 L) (half_law 53 1024 Hp53 He53 eq_refl L) x)). Qed.
Theorem C36_cl3l_bits L x : c_cl3_l (B80 L) x = Cl3_l (B80 L) x.
Proof. exact (proj2 (cl3_generic (B80 L) (half_law 64 16384 Hp64 He64 eq_refl L) x)). Qed.

Section Generic.
Variable N : num.
Definition k1_c (P Q : list N) (y r s : N) : N :=
  let z := sub N y (lit N 25 (-2)) in add N r (div N (mul N (mul N s y) (hornerl N z P)) (hornerl N z Q)).
Lemma c_li2_l_shape x : c_li2_l N x = Li2_shape N (lit N 314159265358979323846264338327950288 (-35)) (k1_c (Li2_l_P N) (Li2_l_Q N)) x.
Proof. reflexivity. Qed.
Lemma c_li2_q_shape x : c_li2_q N x = Li2_shape N (lit N 314159265358979323846264338327950288 (-35)) (k1_c (Li2_q_P N) (Li2_q_Q N)) x.
Proof. reflexivity. Qed.
Lemma top_l_P : exists u l, rev (Li2_l_P N) = lit N 791217309833196694976662068263629735 (-40) :: u :: l.
Proof. eexists. eexists. reflexivity. Qed.
Lemma top_l_Q : exists u l, rev (Li2_l_Q N) = lit N 123136575793833628711851523557950417 (-38) :: u :: l.
Proof. eexists. eexists. reflexivity. Qed.
Lemma top_q_P : exists u l, rev (Li2_q_P N) = lit N 9903774998345984320775601732982548652 (-45) :: u :: l.
Proof. eexists. eexists. reflexivity. Qed.
Lemma top_q_Q : exists u l, rev (Li2_q_Q N) = lit N 41629116823949062782848730828350635143 (-44) :: u :: l.
Proof. eexists. eexists. reflexivity. Qed.
End Generic.

(** li2l starts the Horner scheme from 0, Li2 from the leading coefficient *)
Section Li2.
Variables prec emax : Z.
Variable Hp : Prec_gt_0 prec.
Variable He : Prec_lt_emax prec emax.
Hypothesis prec1 : (1 < prec)%Z.
Variable L : libm prec emax.
Notation N := (NumB prec emax Hp He L).
Lemma approx_eq (P Q : list N) tp up lp tq uq lq : rev P = tp :: up :: lp -> rev Q = tq :: uq :: lq -> is_finite_strict tp = true -> is_finite_strict tq = true ->
  forall y, fin1 prec emax y \/ y = B754_nan -> let z := sub N y (lit N 25 (-2)) in hornerl N z P = horner N z P /\ hornerl N z Q = horner N z Q.
Proof.
  intros EP EQ SP SQ y Y z. destruct Y as [Y| ->].
  - pose proof (fin1_fin prec emax Hp He prec1 L y Y) as F. fold z in F. split; eapply horner_fin; eassumption.
  - assert (E : z = B754_nan) by reflexivity. rewrite E. split.
    + rewrite (hornerl_nan prec emax Hp He L P _ _ EP), (horner_nan prec emax Hp He L P _ _ _ EP). reflexivity.
    + rewrite (hornerl_nan prec emax Hp He L Q _ _ EQ), (horner_nan prec emax Hp He L Q _ _ _ EQ). reflexivity.
Qed.
Lemma half_lt1 x : ltb N x (lit N 0 0) = false -> ltb N x (lit N 5 (-1)) = true -> fin1 prec emax x.
Proof.
  intros H0 H. apply ltb_false_lit in H0; [|assumption|lia]. change (Bltb x (blit prec emax Hp He 5 (-1)) = true) in H.
  destruct (half_ok prec emax Hp He prec1) as [V F]. destruct H0 as [->|[->|[FX H0]]].
  - destruct (blit prec emax Hp He 5 (-1)); discriminate H || discriminate F.
  - destruct (blit prec emax Hp He 5 (-1)); discriminate H || discriminate F.
  - rewrite ltb_R, V in H by assumption. split; [exact FX|]. revert H. case Rlt_bool_spec; [|discriminate]. intros. apply Rabs_le. lra.
Qed.
Lemma shape_ext pi (k k' : N -> N -> N -> N) x : (forall y r s, fin1 prec emax y \/ y = B754_nan -> k y r s = k' y r s) -> Li2_shape N pi k x = Li2_shape N pi k' x.
Proof.
  intros H. unfold Li2_shape. cbv zeta.
  destruct (ltb N x (lit N (-1) 0)) eqn:E1; [apply H; left; apply y_lt_m1; assumption|].
  destruct (eqb N x (lit N (-1) 0)); [reflexivity|].
  destruct (ltb N x (lit N 0 0)) eqn:E2; [apply H; left; apply y_neg; assumption|].
  destruct (eqb N x (lit N 0 0)); [reflexivity|].
  destruct (ltb N x (lit N 5 (-1))) eqn:E3; [apply H; left; apply half_lt1; assumption|].
  destruct (ltb N x (lit N 1 0)) eqn:E4; [apply H; left; apply y_mid; assumption|].
  destruct (eqb N x (lit N 1 0)); [reflexivity|].
  destruct (ltb N x (lit N 2 0)) eqn:E5; [apply H; left; apply y_12; assumption|].
  apply H. destruct (y_2 prec emax Hp He prec1 L x E5) as [Y| ->]; [left; exact Y|right].
  apply (div_nan_r prec emax Hp He L).
Qed.
Lemma li2_eq (P Q : list N) tp up lp tq uq lq pi x : rev P = tp :: up :: lp -> rev Q = tq :: uq :: lq -> is_finite_strict tp = true -> is_finite_strict tq = true ->
  Li2_shape N pi (k1_c N P Q) x = Li2_shape N pi (k1_h N P Q) x.
Proof.
  intros A B C D. apply shape_ext. intros y r s Y. unfold k1_c, k1_h. cbv zeta. destruct (approx_eq P Q _ _ _ _ _ _ A B C D y Y) as [U W]. rewrite U, W. reflexivity.
Qed.
End Li2.
Theorem C36_li2l_bits L x : c_li2_l (B80 L) x = Li2_l (B80 L) x.
Proof.
  rewrite c_li2_l_shape, Li2_l_shape. destruct (top_l_P (B80 L)) as (u & l & A). destruct (top_l_Q (B80 L)) as (u' & l' & B).
  apply (li2_eq 64 16384 Hp64 He64 ltac:(lia) L _ _ _ _ _ _ _ _ _ _ A B); vm_compute; reflexivity.
Qed.
Theorem C36_li2q_bits L x : c_li2_q (B128 L) x = Li2_q (B128 L) x.
Proof.
  rewrite c_li2_q_shape, Li2_q_shape. destruct (top_q_P (B128 L)) as (u & l & A). destruct (top_q_Q (B128 L)) as (u' & l' & B).
  apply (li2_eq 113 16384 Hp113 He113 ltac:(lia) L _ _ _ _ _ _ _ _ _ _ A B); vm_compute; reflexivity.
Qed.
(** cl4 divides the logarithm by 6 where Cl4 multiplies it by the rounded constant 1/6: the same function in exact
    arithmetic, not the same bits in floating point. *)
Lemma cl4_generic (N : num) : (forall l, mul N (div N (lit N 1 0) (lit N 6 0)) l = div N l (lit N 6 0)) -> forall x, c_cl4_d N x = Cl4_d N x /\ c_cl4_l N x = Cl4_l N x.
Proof.
  intros H x. split.
  - unfold c_cl4_d, Cl4_d. cbv beta zeta. repeat match goal with |- context [let '(_, _) := ?e in _] => destruct e end. rewrite H. reflexivity.
  - unfold c_cl4_l, Cl4_l. cbv beta zeta. repeat match goal with |- context [let '(_, _) := ?e in _] => destruct e end. rewrite H. reflexivity.
Qed.
Theorem C36_cl4_exact e x : c_cl4_d (NumR e) x = Cl4_d (NumR e) x /\ c_cl4_l (NumR e) x = Cl4_l (NumR e) x.
Proof.
  assert (H : forall l, mul (NumR e) (div (NumR e) (lit (NumR e) 1 0) (lit (NumR e) 6 0)) l = div (NumR e) l (lit (NumR e) 6 0)).
  { intros l. cbn [mul div lit NumR]. rewrite !litR_int. rewrite odiv_some by lra. destruct l as [l|]; [|cbn; destruct (Req_EM_T 6 0); reflexivity].
    rewrite odiv_some by lra. cbn. f_equal. field. }
  exact (cl4_generic (NumR e) H x).
Qed.
Definition x15 : f64 := bnorm 53 1024 Hp53 He53 3 (-1).
Definition l15 : f64 := bnorm 53 1024 Hp53 He53 7304210039150668 (-54).
Section Cl4.
Variable N : num.
Definition cl4_small (x l6 : N) : N :=
  let y := mul N x x in let y2 := mul N y y in
  let p := add N (add N (aref N (Cl4_d_P N) 0) (mul N y (aref N (Cl4_d_P N) 1))) (mul N y2 (add N (aref N (Cl4_d_P N) 2) (mul N y (aref N (Cl4_d_P N) 3)))) in
  let q := add N (add N (aref N (Cl4_d_Q N) 0) (mul N y (aref N (Cl4_d_Q N) 1))) (mul N y2 (add N (aref N (Cl4_d_Q N) 2) (mul N y (aref N (Cl4_d_Q N) 3)))) in
  mul N (lit N 1 0) (mul N x (add N (lit N 12020569031595943 (-16)) (mul N y (add N (div N p q) l6)))).
Lemma cl4_small_eq x : let PI := lit N 314159265358979324 (-17) in
  ltb N x (lit N 0 0) = false -> leb N (mul N (lit N 2 0) PI) x = false -> ltb N PI x = false -> eqb N x (lit N 0 0) = false -> eqb N x PI = false -> ltb N x (div N PI (lit N 2 0)) = true ->
  Cl4_d N x = cl4_small x (mul N (div N (lit N 1 0) (lit N 6 0)) (nlog N x)) /\ c_cl4_d N x = cl4_small x (div N (nlog N x) (lit N 6 0)).
Proof. intros PI H1 H2 H3 H4 H5 H6. unfold Cl4_d, c_cl4_d. fold PI. cbv beta zeta. rewrite H1, H2, H3, H4, H5, H6. split; reflexivity. Qed.
End Cl4.
Lemma ln15_rnd : round radix2 (SpecFloat.fexp 53 1024) ZnearestE (ln (3 / 2)) = F2R (Float radix2 7304210039150668 (-54)).
Proof.
  unfold round, scaled_mantissa, cexp. rewrite (mag_unique_pos radix2 _ (-1)).
  2:{ change (bpow radix2 (-1 - 1)) with (/ 4). change (bpow radix2 (-1)) with (/ 2). split; interval. }
  change (SpecFloat.fexp 53 1024 (-1)) with (-54)%Z. f_equal. f_equal. apply Znearest_imp. change (- (-54))%Z with 54%Z.
  change (bpow radix2 54) with 18014398509481984. interval with (i_prec 90).
Qed.
Lemma log15_cr : m_log _ _ (libm_cr 53 1024 Hp53 He53) x15 = l15.
Proof.
  assert (E : exists m e B, x15 = B754_finite false m e B /\ F2R (Float radix2 (Zpos m) e) = 3 / 2).
  { destruct x15 as [s|s| |s m e B] eqn:D; apply (f_equal (@B2SF 53 1024)) in D; vm_compute in D; try discriminate D.
    injection D as <- <- <-. do 3 eexists. split; [reflexivity|]. unfold F2R. cbn [Fnum Fexp]. change (bpow radix2 (-52)) with (/ 4503599627370496). lra. }
  destruct E as (m & e & B & -> & V). cbn [m_log libm_cr B2R SpecFloat.cond_Zopp].
  change (SpecFloat.cond_Zopp false (Z.pos m)) with (Z.pos m). rewrite V.
  assert (G : Rabs (round radix2 (SpecFloat.fexp 53 1024) ZnearestE (ln (3 / 2))) < bpow radix2 1024).
  { rewrite ln15_rnd. apply Rlt_trans with (bpow radix2 0); [|apply bpow_lt; lia]. unfold F2R. cbn [Fnum Fexp]. change (bpow radix2 0) with 1. change (bpow radix2 (-54)) with (/ 18014398509481984). rewrite Rabs_pos_eq; lra. }
  destruct (Bround_correct 53 1024 Hp53 He53 (ln (3 / 2)) G) as [P F].
  assert (FL : is_finite l15 = true) by (vm_compute; reflexivity).
  assert (VL : B2R l15 = F2R (Float radix2 7304210039150668 (-54))).
  { destruct l15 as [s|s| |s m' e' B'] eqn:D; apply (f_equal (@B2SF 53 1024)) in D; vm_compute in D; try discriminate D. injection D as <- <- <-. reflexivity. }
  apply B2R_inj.
  - destruct (Bround 53 1024 Hp53 He53 (ln (3 / 2))); try discriminate F; try reflexivity. cbn in P. rewrite ln15_rnd in P. exfalso. revert P. unfold F2R. cbn [Fnum Fexp]. change (bpow radix2 (-54)) with (/ 18014398509481984). lra.
  - vm_compute; reflexivity.
  - rewrite P, VL. exact ln15_rnd.
Qed.
Lemma cl4_differ L : m_log _ _ L x15 = l15 -> c_cl4_d (B64 L) x15 <> Cl4_d (B64 L) x15.
Proof.
  intros H. destruct (cl4_small_eq (B64 L) x15) as [A B]; [vm_compute; reflexivity..|]. rewrite A, B. clear A B. change (nlog (B64 L) x15) with (m_log _ _ L x15). rewrite H.
  intros E. apply (f_equal (fun v => Beqb v (cl4_small (B64 L) x15 (div (B64 L) l15 (lit (B64 L) 6 0))))) in E. revert E. vm_compute. discriminate.
Qed.
(** with a mathematical library that rounds correctly, the two differ already at x = 3/2 (in the last bit) *)
Theorem C36_cl4_bits_refuted : exists L x, libm_ok (Hp := Hp53) (He := He53) L /\ is_finite x = true /\ c_cl4_d (B64 L) x <> Cl4_d (B64 L) x.
Proof. exists (libm_cr 53 1024 Hp53 He53), x15. split; [exact libm_ok_64|]. split; [vm_compute; reflexivity|]. apply cl4_differ, log15_cr. Qed.
