(** * Real Li2 in IEEE arithmetic: the instances float, double, long double (x87), quadruple

    Generated by tools/gen_li2_inst.py. *)
From Coq Require Import ZArith Reals Bool Lia Lra Psatz List.
From Coquelicot Require Import Rcomplements.
From Flocq Require Import Core Relative IEEE754.BinarySingleNaN.
From Verif Require Import Num NumR Eval_R NumB NumB_facts Proof_Float Libm Ferr FerrB Fcalc Polylog Consts Cl_pieces Model_LiR Poly_check Proof_Li2 Li2_ieee Li2_core.
Import ListNotations.
Local Open Scope R_scope.

Lemma evalN_ext (N : num) (e1 e2 : nat -> N) e : (forall i, e1 i = e2 i) -> evalN N e1 e = evalN N e2 e.
Proof. intros H. induction e; cbn [evalN]; congruence. Qed.
(** constants: the value computed for c = +-PI*PI/k *)
Lemma pi_const prec emax (Hp : Prec_gt_0 prec) (He : Prec_lt_emax prec emax) (L : libm prec emax) m k d sg z (c : Z) (e : ex) :
  (16 < prec <= 138)%Z -> (128 <= emax)%Z -> (142 <= emax + prec)%Z -> Rabs (litR m k - PI) <= d -> d <= / 100 -> d * (63 / 10) <= 3 * u prec -> (3 <= z)%Z -> (sg = 1 \/ sg = -1) ->
  check prec e [[]] (c * 2 ^ (138 - prec)) = true ->
  (e = EDiv (EMul (K m k) (K m k)) (K z 0) /\ sg = 1 \/ e = EDiv (EMul (EOpp (K m k)) (K m k)) (K z 0) /\ sg = -1) ->
  A prec emax (evalN (NumB prec emax Hp He L) (fun _ => B754_zero false) e) (sg * (PI * PI / IZR z)) ((IZR c / 4 + 1) * u prec).
Proof.
  intros P1 P2 P3 D1 D2 D3 Z3 SG C E. assert (Z0 : 3 <= IZR z) by (apply (IZR_le 3); exact Z3).
  destruct (const_check prec emax Hp He ltac:(lia) ltac:(lia) ltac:(lia) L e _ 0 (sg * (litR m k * litR m k / IZR z)) C) as [F G].
  { destruct E as [[-> ->]|[-> ->]]; cbn [evalN NumR add sub mul div opp lit lift2 lift1 car]; rewrite litR_int, odiv_some by lra; f_equal; field; lra. }
  split; [exact F|]. pose proof (sq_diff _ _ D1 D2) as S.
  assert (U : IZR (c * 2 ^ (138 - prec)) / sc = IZR c / 4 * u prec).
  { rewrite mult_IZR, sc_bpow. change (2 ^ (138 - prec))%Z with (Zpower radix2 (138 - prec)). rewrite IZR_Zpower by lia. unfold Fcalc.u, Rdiv. rewrite Rmult_assoc, <- bpow_opp, <- bpow_plus. replace (138 - prec + - (140))%Z with (-(2) + - prec)%Z by ring. rewrite bpow_plus. change (bpow radix2 (-(2))) with (/ 4). ring. }
  rewrite U in G. eapply (tri_le _ (sg * (litR m k * litR m k / IZR z)) _ _ (u prec)); [exact G| |lra].
  rewrite <- Rmult_minus_distr_l, Rabs_mult. replace (Rabs sg) with 1 by (destruct SG as [-> | ->]; [rewrite Rabs_R1|rewrite Rabs_left by lra]; lra).
  rewrite Rmult_1_l. replace (litR m k * litR m k / IZR z - PI * PI / IZR z) with ((litR m k * litR m k - PI * PI) * / IZR z) by (field; lra).
  rewrite Rabs_mult, (Rabs_pos_eq (/ IZR z)) by (left; apply Rinv_0_lt_compat; lra).
  apply Rle_trans with (3 * u prec * / 3); [|right; field]. apply Rmult_le_compat; [apply Rabs_pos|left; apply Rinv_0_lt_compat; lra|lra|apply Rinv_le_contravar; lra].
Qed.
Notation y0 := (V 0).
Section X.
Notation N := NumE.
Infix "+" := (add N). Infix "*" := (mul N).
Definition xPf : ex := let y : N := y0 in let y2 := y * y in let y4 := y2 * y2 in (aref N (Li2_f_P N) 0%nat) + y * (aref N (Li2_f_P N) 1%nat) + y2 * (aref N (Li2_f_P N) 2%nat).
Definition xQf : ex := let y : N := y0 in let y2 := y * y in let y4 := y2 * y2 in (aref N (Li2_f_Q N) 0%nat) + y * (aref N (Li2_f_Q N) 1%nat) + y2 * (aref N (Li2_f_Q N) 2%nat).
Definition xPd : ex := let y : N := y0 in let y2 := y * y in let y4 := y2 * y2 in (aref N (Li2_d_P N) 0%nat) + y * (aref N (Li2_d_P N) 1%nat) + y2 * ((aref N (Li2_d_P N) 2%nat) + y * (aref N (Li2_d_P N) 3%nat)) + y4 * ((aref N (Li2_d_P N) 4%nat) + y * (aref N (Li2_d_P N) 5%nat)).
Definition xQd : ex := let y : N := y0 in let y2 := y * y in let y4 := y2 * y2 in (aref N (Li2_d_Q N) 0%nat) + y * (aref N (Li2_d_Q N) 1%nat) + y2 * ((aref N (Li2_d_Q N) 2%nat) + y * (aref N (Li2_d_Q N) 3%nat)) + y4 * ((aref N (Li2_d_Q N) 4%nat) + y * (aref N (Li2_d_Q N) 5%nat) + y2 * (aref N (Li2_d_Q N) 6%nat)).
Definition xPl : ex := let y : N := y0 in let y2 := y * y in let y4 := y2 * y2 in horner N (sub N y (lit N 25 (-2))) (Li2_l_P N).
Definition xQl : ex := let y : N := y0 in let y2 := y * y in let y4 := y2 * y2 in horner N (sub N y (lit N 25 (-2))) (Li2_l_Q N).
Definition xPq : ex := let y : N := y0 in let y2 := y * y in let y4 := y2 * y2 in horner N (sub N y (lit N 25 (-2))) (Li2_q_P N).
Definition xQq : ex := let y : N := y0 in let y2 := y * y in let y4 := y2 * y2 in horner N (sub N y (lit N 25 (-2))) (Li2_q_Q N).
End X.

(** ** f *)
Lemma split_f (N : num) z0 y r s : k1_f N y r s = add N r (div N (mul N (mul N s y) (evalN N (fun i => nth i [y] z0) xPf)) (evalN N (fun i => nth i [y] z0) xQf)).
Proof. reflexivity. Qed.
Lemma lit25 : litR 25 (-2) = / 4.
Proof. rewrite litR_dec. change (IZR (10 ^ 2)) with 100. lra. Qed.
Lemma evP_f y : evalR (fun i => nth i [y] 0) xPf = plit Pf y.
Proof. cbv [xPf Pf Li2_f_P plit lit NumLit NumE add mul sub aref nth horner rev app fold_left evalR litp fst snd]. rewrite ?lit25. ring. Qed.
Lemma evQ_f y : evalR (fun i => nth i [y] 0) xQf = plit Qf y.
Proof. cbv [xQf Qf Li2_f_Q plit lit NumLit NumE add mul sub aref nth horner rev app fold_left evalR litp fst snd]. rewrite ?lit25. ring. Qed.
Lemma ckP_f : checkp 24 xPf (grid 0 (2 ^ (39 - Z.of_nat 4)) (2 ^ 4)) (relb 24 4991) = true.
Proof. vm_compute. reflexivity. Qed.
Lemma ckQ_f : checkp 24 xQf (grid 0 (2 ^ (39 - Z.of_nat 4)) (2 ^ 4)) (relb 24 6169) = true.
Proof. vm_compute. reflexivity. Qed.
Section If.
Variable L : libm 24 128.
Hypothesis HL : libm_ok (Hp := Hp24) (He := He24) L.
Notation N := (B32 L).
Lemma u_f : u 24 = / 2 ^ 24.
Proof. unfold Fcalc.u. change (- (24))%Z with (Zneg 24). rewrite bp2. reflexivity. Qed.
Lemma zero_le_f : evalR (fun i => nth i [0] 0) xPf <= 8 / 5 * evalR (fun i => nth i [0] 0) xQf.
Proof. apply (zero_gen 24 128 Hp24 He24 ltac:(lia) ltac:(lia) ltac:(lia) L); vm_compute; reflexivity. Qed.
Lemma Li2_acc_f (x : car N) : is_finite x = true ->
  A 24 128 (Li2_f N x) (ReLi 2 (B2R x)) (bound 24 128 30 (B2R x)).
Proof.
  rewrite Li2_f_shape. pose proof u_f as EU.
  assert (DP : Rabs (litR 314159265 (-8) - PI) <= 4 / 10 ^ 9).
  { eapply Rle_trans; [apply PI_lit with (d := 39 / 10 ^ 10)|lra]. p10 8%nat. apply Rabs_le. lra. }
  assert (CK : forall sg z e c, (3 <= z)%Z -> (sg = 1 \/ sg = -1) -> check 24 e [[]] (c * 2 ^ (138 - 24)) = true ->
    (e = EDiv (EMul (K 314159265 (-8)) (K 314159265 (-8))) (K z 0) /\ sg = 1 \/ e = EDiv (EMul (EOpp (K 314159265 (-8))) (K 314159265 (-8))) (K z 0) /\ sg = -1) ->
    A 24 128 (evalN N (fun _ => B754_zero false) e) (sg * (PI * PI / IZR z)) ((IZR c / 4 + 1) * u 24)).
  { intros sg z e c Z3 SG C E. refine (pi_const 24 128 Hp24 He24 L 314159265 (-8) _ sg z c e ltac:(lia) ltac:(lia) ltac:(lia) DP _ _ Z3 SG C E); [lra|rewrite EU; lra]. }
  pose proof (CK (-1) 6%Z (EDiv (EMul (EOpp (K 314159265 (-8))) (K 314159265 (-8))) (K 6 0)) 34%Z ltac:(lia) ltac:(right; reflexivity) ltac:(vm_compute; reflexivity) ltac:(right; split; reflexivity)) as C6m.
  pose proof (CK (-1) 12%Z (EDiv (EMul (EOpp (K 314159265 (-8))) (K 314159265 (-8))) (K 12 0)) 17%Z ltac:(lia) ltac:(right; reflexivity) ltac:(vm_compute; reflexivity) ltac:(right; split; reflexivity)) as C12m.
  pose proof (CK 1 6%Z (EDiv (EMul (K 314159265 (-8)) (K 314159265 (-8))) (K 6 0)) 34%Z ltac:(lia) ltac:(left; reflexivity) ltac:(vm_compute; reflexivity) ltac:(left; split; reflexivity)) as C6.
  pose proof (CK 1 3%Z (EDiv (EMul (K 314159265 (-8)) (K 314159265 (-8))) (K 3 0)) 67%Z ltac:(lia) ltac:(left; reflexivity) ltac:(vm_compute; reflexivity) ltac:(left; split; reflexivity)) as C3. clear CK.
  cbn [evalN] in C6m, C12m, C6, C3. assert (U0 : 0 < u 24) by (rewrite EU; apply Rinv_0_lt_compat, pow_lt; lra).
  apply (Li2_acc 24 128 Hp24 He24 ltac:(lia) ltac:(lia) ltac:(lia) ltac:(lia) ltac:(lia) L HL _ _ 30 ltac:(lra)).
  - apply (core_gen 24 128 Hp24 He24 ltac:(lia) ltac:(lia) ltac:(lia) ltac:(lia) L _ xPf xQf 4 4991 6169 (fun y => y * (plit Pf y / plit Qf y)) (3 / 10 ^ 7) 30).
    + intros y r s. exact (split_f N (B754_zero false) y r s).
    + exact ckP_f.
    + exact ckQ_f.
    + lia.
    + intros y Hy. split; [rewrite evP_f, evQ_f; reflexivity|exact (proj2 (f_ok y Hy))].
    + lra.
    + exact zero_le_f.
    + lra.
    + lra.
    + rewrite EU. lra.
    + rewrite EU. lra.
    + rewrite EU. lra.
  - refine (A_weak _ _ _ _ _ _ (eq_ind _ (fun v => A 24 128 _ v _) C6m _ _) _); [ring|lra].
  - refine (A_weak _ _ _ _ _ _ (eq_ind _ (fun v => A 24 128 _ v _) C12m _ _) _); [ring|lra].
  - refine (A_weak _ _ _ _ _ _ (eq_ind _ (fun v => A 24 128 _ v _) C6 _ _) _); [ring|lra].
  - refine (A_weak _ _ _ _ _ _ (eq_ind _ (fun v => A 24 128 _ v _) C3 _ _) _); [ring|lra].
  - assert (E : B2SF (blit 24 128 Hp24 He24 5 (-1)) = SpecFloat.S754_finite false 8388608 (- 24)) by (vm_compute; reflexivity).
    change (lit (NumB 24 128 Hp24 He24 L) 5 (-1)) with (blit 24 128 Hp24 He24 5 (-1)). split; [rewrite <- is_finite_SF_B2SF, E; reflexivity|]. rewrite <- SF2R_B2SF, E. cbn [SF2R cond_Zopp]. unfold F2R. cbn [Fnum Fexp]. rewrite bpow_neg. change (Z.pow 2 24) with 16777216%Z. rewrite ?opp_IZR. lra.
  - assert (E : B2SF (blit 24 128 Hp24 He24 (-5) (-1)) = SpecFloat.S754_finite true 8388608 (- 24)) by (vm_compute; reflexivity).
    change (lit (NumB 24 128 Hp24 He24 L) (-5) (-1)) with (blit 24 128 Hp24 He24 (-5) (-1)). split; [rewrite <- is_finite_SF_B2SF, E; reflexivity|]. rewrite <- SF2R_B2SF, E. cbn [SF2R cond_Zopp]. unfold F2R. cbn [Fnum Fexp]. rewrite bpow_neg. change (Z.pow 2 24) with 16777216%Z. rewrite ?opp_IZR. lra.
Qed.
End If.

(** ** d *)
Lemma split_d (N : num) z0 y r s : k1_d N y r s = add N r (div N (mul N (mul N s y) (evalN N (fun i => nth i [y] z0) xPd)) (evalN N (fun i => nth i [y] z0) xQd)).
Proof. reflexivity. Qed.
Lemma evP_d y : evalR (fun i => nth i [y] 0) xPd = plit Pd y.
Proof. cbv [xPd Pd Li2_d_P plit lit NumLit NumE add mul sub aref nth horner rev app fold_left evalR litp fst snd]. rewrite ?lit25. ring. Qed.
Lemma evQ_d y : evalR (fun i => nth i [y] 0) xQd = plit Qd y.
Proof. cbv [xQd Qd Li2_d_Q plit lit NumLit NumE add mul sub aref nth horner rev app fold_left evalR litp fst snd]. rewrite ?lit25. ring. Qed.
Lemma ckP_d : checkp 53 xPd (grid 0 (2 ^ (39 - Z.of_nat 6)) (2 ^ 6)) (relb 53 41481) = true.
Proof. vm_compute. reflexivity. Qed.
Lemma ckQ_d : checkp 53 xQd (grid 0 (2 ^ (39 - Z.of_nat 6)) (2 ^ 6)) (relb 53 57283) = true.
Proof. vm_compute. reflexivity. Qed.
Section Id.
Variable L : libm 53 1024.
Hypothesis HL : libm_ok (Hp := Hp53) (He := He53) L.
Notation N := (B64 L).
Lemma u_d : u 53 = / 2 ^ 53.
Proof. unfold Fcalc.u. change (- (53))%Z with (Zneg 53). rewrite bp2. reflexivity. Qed.
Lemma zero_le_d : evalR (fun i => nth i [0] 0) xPd <= 8 / 5 * evalR (fun i => nth i [0] 0) xQd.
Proof. apply (zero_gen 53 1024 Hp53 He53 ltac:(lia) ltac:(lia) ltac:(lia) L); vm_compute; reflexivity. Qed.
Lemma Li2_acc_d (x : car N) : is_finite x = true ->
  A 53 1024 (Li2_d N x) (ReLi 2 (B2R x)) (bound 53 1024 172 (B2R x)).
Proof.
  rewrite Li2_d_shape. pose proof u_d as EU.
  assert (DP : Rabs (litR 31415926535897932 (-16) - PI) <= 39 / 10 ^ 18).
  { eapply Rle_trans; [apply PI_lit with (d := 385 / 10 ^ 19)|lra]. p10 16%nat. apply Rabs_le. lra. }
  assert (CK : forall sg z e c, (3 <= z)%Z -> (sg = 1 \/ sg = -1) -> check 53 e [[]] (c * 2 ^ (138 - 53)) = true ->
    (e = EDiv (EMul (K 31415926535897932 (-16)) (K 31415926535897932 (-16))) (K z 0) /\ sg = 1 \/ e = EDiv (EMul (EOpp (K 31415926535897932 (-16))) (K 31415926535897932 (-16))) (K z 0) /\ sg = -1) ->
    A 53 1024 (evalN N (fun _ => B754_zero false) e) (sg * (PI * PI / IZR z)) ((IZR c / 4 + 1) * u 53)).
  { intros sg z e c Z3 SG C E. refine (pi_const 53 1024 Hp53 He53 L 31415926535897932 (-16) _ sg z c e ltac:(lia) ltac:(lia) ltac:(lia) DP _ _ Z3 SG C E); [lra|rewrite EU; lra]. }
  pose proof (CK (-1) 6%Z (EDiv (EMul (EOpp (K 31415926535897932 (-16))) (K 31415926535897932 (-16))) (K 6 0)) 34%Z ltac:(lia) ltac:(right; reflexivity) ltac:(vm_compute; reflexivity) ltac:(right; split; reflexivity)) as C6m.
  pose proof (CK (-1) 12%Z (EDiv (EMul (EOpp (K 31415926535897932 (-16))) (K 31415926535897932 (-16))) (K 12 0)) 17%Z ltac:(lia) ltac:(right; reflexivity) ltac:(vm_compute; reflexivity) ltac:(right; split; reflexivity)) as C12m.
  pose proof (CK 1 6%Z (EDiv (EMul (K 31415926535897932 (-16)) (K 31415926535897932 (-16))) (K 6 0)) 34%Z ltac:(lia) ltac:(left; reflexivity) ltac:(vm_compute; reflexivity) ltac:(left; split; reflexivity)) as C6.
  pose proof (CK 1 3%Z (EDiv (EMul (K 31415926535897932 (-16)) (K 31415926535897932 (-16))) (K 3 0)) 67%Z ltac:(lia) ltac:(left; reflexivity) ltac:(vm_compute; reflexivity) ltac:(left; split; reflexivity)) as C3. clear CK.
  cbn [evalN] in C6m, C12m, C6, C3. assert (U0 : 0 < u 53) by (rewrite EU; apply Rinv_0_lt_compat, pow_lt; lra).
  apply (Li2_acc 53 1024 Hp53 He53 ltac:(lia) ltac:(lia) ltac:(lia) ltac:(lia) ltac:(lia) L HL _ _ 172 ltac:(lra)).
  - apply (core_gen 53 1024 Hp53 He53 ltac:(lia) ltac:(lia) ltac:(lia) ltac:(lia) L _ xPd xQd 6 41481 57283 (fun y => y * (plit Pd y / plit Qd y)) (101 / 10 ^ 18) 172).
    + intros y r s. exact (split_d N (B754_zero false) y r s).
    + exact ckP_d.
    + exact ckQ_d.
    + lia.
    + intros y Hy. split; [rewrite evP_d, evQ_d; reflexivity|exact (proj2 (d_ok y Hy))].
    + lra.
    + exact zero_le_d.
    + lra.
    + lra.
    + rewrite EU. lra.
    + rewrite EU. lra.
    + rewrite EU. lra.
  - refine (A_weak _ _ _ _ _ _ (eq_ind _ (fun v => A 53 1024 _ v _) C6m _ _) _); [ring|lra].
  - refine (A_weak _ _ _ _ _ _ (eq_ind _ (fun v => A 53 1024 _ v _) C12m _ _) _); [ring|lra].
  - refine (A_weak _ _ _ _ _ _ (eq_ind _ (fun v => A 53 1024 _ v _) C6 _ _) _); [ring|lra].
  - refine (A_weak _ _ _ _ _ _ (eq_ind _ (fun v => A 53 1024 _ v _) C3 _ _) _); [ring|lra].
  - assert (E : B2SF (blit 53 1024 Hp53 He53 5 (-1)) = SpecFloat.S754_finite false 4503599627370496 (- 53)) by (vm_compute; reflexivity).
    change (lit (NumB 53 1024 Hp53 He53 L) 5 (-1)) with (blit 53 1024 Hp53 He53 5 (-1)). split; [rewrite <- is_finite_SF_B2SF, E; reflexivity|]. rewrite <- SF2R_B2SF, E. cbn [SF2R cond_Zopp]. unfold F2R. cbn [Fnum Fexp]. rewrite bpow_neg. change (Z.pow 2 53) with 9007199254740992%Z. rewrite ?opp_IZR. lra.
  - assert (E : B2SF (blit 53 1024 Hp53 He53 (-5) (-1)) = SpecFloat.S754_finite true 4503599627370496 (- 53)) by (vm_compute; reflexivity).
    change (lit (NumB 53 1024 Hp53 He53 L) (-5) (-1)) with (blit 53 1024 Hp53 He53 (-5) (-1)). split; [rewrite <- is_finite_SF_B2SF, E; reflexivity|]. rewrite <- SF2R_B2SF, E. cbn [SF2R cond_Zopp]. unfold F2R. cbn [Fnum Fexp]. rewrite bpow_neg. change (Z.pow 2 53) with 9007199254740992%Z. rewrite ?opp_IZR. lra.
Qed.
End Id.

(** ** l *)
Lemma split_l (N : num) z0 y r s : k1_h N (Li2_l_P N) (Li2_l_Q N) y r s = add N r (div N (mul N (mul N s y) (evalN N (fun i => nth i [y] z0) xPl)) (evalN N (fun i => nth i [y] z0) xQl)).
Proof. reflexivity. Qed.
Lemma evP_l y : evalR (fun i => nth i [y] 0) xPl = plit Pl (y - / 4).
Proof. cbv [xPl Pl Li2_l_P plit lit NumLit NumE add mul sub aref nth horner rev app fold_left evalR litp fst snd]. rewrite ?lit25. ring. Qed.
Lemma evQ_l y : evalR (fun i => nth i [y] 0) xQl = plit Ql (y - / 4).
Proof. cbv [xQl Ql Li2_l_Q plit lit NumLit NumE add mul sub aref nth horner rev app fold_left evalR litp fst snd]. rewrite ?lit25. ring. Qed.
Lemma ckP_l : checkp 64 xPl (grid 0 (2 ^ (39 - Z.of_nat 6)) (2 ^ 6)) (relb 64 38619) = true.
Proof. vm_compute. reflexivity. Qed.
Lemma ckQ_l : checkp 64 xQl (grid 0 (2 ^ (39 - Z.of_nat 6)) (2 ^ 6)) (relb 64 45876) = true.
Proof. vm_compute. reflexivity. Qed.
Section Il.
Variable L : libm 64 16384.
Hypothesis HL : libm_ok (Hp := Hp64) (He := He64) L.
Notation N := (B80 L).
Lemma u_l : u 64 = / 2 ^ 64.
Proof. unfold Fcalc.u. change (- (64))%Z with (Zneg 64). rewrite bp2. reflexivity. Qed.
Lemma zero_le_l : evalR (fun i => nth i [0] 0) xPl <= 8 / 5 * evalR (fun i => nth i [0] 0) xQl.
Proof. apply (zero_gen 64 16384 Hp64 He64 ltac:(lia) ltac:(lia) ltac:(lia) L); vm_compute; reflexivity. Qed.
Lemma Li2_acc_l (x : car N) : is_finite x = true ->
  A 64 16384 (Li2_l N x) (ReLi 2 (B2R x)) (bound 64 16384 148 (B2R x)).
Proof.
  rewrite Li2_l_shape. pose proof u_l as EU.
  assert (DP : Rabs (litR 314159265358979323846264338327950288 (-35) - PI) <= 5 / 10 ^ 36).
  { eapply Rle_trans; [apply PI_lit with (d := 43 / 10 ^ 37)|lra]. p10 35%nat. apply Rabs_le. lra. }
  assert (CK : forall sg z e c, (3 <= z)%Z -> (sg = 1 \/ sg = -1) -> check 64 e [[]] (c * 2 ^ (138 - 64)) = true ->
    (e = EDiv (EMul (K 314159265358979323846264338327950288 (-35)) (K 314159265358979323846264338327950288 (-35))) (K z 0) /\ sg = 1 \/ e = EDiv (EMul (EOpp (K 314159265358979323846264338327950288 (-35))) (K 314159265358979323846264338327950288 (-35))) (K z 0) /\ sg = -1) ->
    A 64 16384 (evalN N (fun _ => B754_zero false) e) (sg * (PI * PI / IZR z)) ((IZR c / 4 + 1) * u 64)).
  { intros sg z e c Z3 SG C E. refine (pi_const 64 16384 Hp64 He64 L 314159265358979323846264338327950288 (-35) _ sg z c e ltac:(lia) ltac:(lia) ltac:(lia) DP _ _ Z3 SG C E); [lra|rewrite EU; lra]. }
  pose proof (CK (-1) 6%Z (EDiv (EMul (EOpp (K 314159265358979323846264338327950288 (-35))) (K 314159265358979323846264338327950288 (-35))) (K 6 0)) 34%Z ltac:(lia) ltac:(right; reflexivity) ltac:(vm_compute; reflexivity) ltac:(right; split; reflexivity)) as C6m.
  pose proof (CK (-1) 12%Z (EDiv (EMul (EOpp (K 314159265358979323846264338327950288 (-35))) (K 314159265358979323846264338327950288 (-35))) (K 12 0)) 17%Z ltac:(lia) ltac:(right; reflexivity) ltac:(vm_compute; reflexivity) ltac:(right; split; reflexivity)) as C12m.
  pose proof (CK 1 6%Z (EDiv (EMul (K 314159265358979323846264338327950288 (-35)) (K 314159265358979323846264338327950288 (-35))) (K 6 0)) 34%Z ltac:(lia) ltac:(left; reflexivity) ltac:(vm_compute; reflexivity) ltac:(left; split; reflexivity)) as C6.
  pose proof (CK 1 3%Z (EDiv (EMul (K 314159265358979323846264338327950288 (-35)) (K 314159265358979323846264338327950288 (-35))) (K 3 0)) 67%Z ltac:(lia) ltac:(left; reflexivity) ltac:(vm_compute; reflexivity) ltac:(left; split; reflexivity)) as C3. clear CK.
  cbn [evalN] in C6m, C12m, C6, C3. assert (U0 : 0 < u 64) by (rewrite EU; apply Rinv_0_lt_compat, pow_lt; lra).
  apply (Li2_acc 64 16384 Hp64 He64 ltac:(lia) ltac:(lia) ltac:(lia) ltac:(lia) ltac:(lia) L HL _ _ 148 ltac:(lra)).
  - apply (core_gen 64 16384 Hp64 He64 ltac:(lia) ltac:(lia) ltac:(lia) ltac:(lia) L _ xPl xQl 6 38619 45876 (fun y => y * (plit Pl (y - / 4) / plit Ql (y - / 4))) (221 / 10 ^ 22) 148).
    + intros y r s. exact (split_l N (B754_zero false) y r s).
    + exact ckP_l.
    + exact ckQ_l.
    + lia.
    + intros y Hy. split; [rewrite evP_l, evQ_l; reflexivity|exact (proj2 (l_ok y Hy))].
    + lra.
    + exact zero_le_l.
    + lra.
    + lra.
    + rewrite EU. lra.
    + rewrite EU. lra.
    + rewrite EU. lra.
  - refine (A_weak _ _ _ _ _ _ (eq_ind _ (fun v => A 64 16384 _ v _) C6m _ _) _); [ring|lra].
  - refine (A_weak _ _ _ _ _ _ (eq_ind _ (fun v => A 64 16384 _ v _) C12m _ _) _); [ring|lra].
  - refine (A_weak _ _ _ _ _ _ (eq_ind _ (fun v => A 64 16384 _ v _) C6 _ _) _); [ring|lra].
  - refine (A_weak _ _ _ _ _ _ (eq_ind _ (fun v => A 64 16384 _ v _) C3 _ _) _); [ring|lra].
  - assert (E : B2SF (blit 64 16384 Hp64 He64 5 (-1)) = SpecFloat.S754_finite false 9223372036854775808 (- 64)) by (vm_compute; reflexivity).
    change (lit (NumB 64 16384 Hp64 He64 L) 5 (-1)) with (blit 64 16384 Hp64 He64 5 (-1)). split; [rewrite <- is_finite_SF_B2SF, E; reflexivity|]. rewrite <- SF2R_B2SF, E. cbn [SF2R cond_Zopp]. unfold F2R. cbn [Fnum Fexp]. rewrite bpow_neg. change (Z.pow 2 64) with 18446744073709551616%Z. rewrite ?opp_IZR. lra.
  - assert (E : B2SF (blit 64 16384 Hp64 He64 (-5) (-1)) = SpecFloat.S754_finite true 9223372036854775808 (- 64)) by (vm_compute; reflexivity).
    change (lit (NumB 64 16384 Hp64 He64 L) (-5) (-1)) with (blit 64 16384 Hp64 He64 (-5) (-1)). split; [rewrite <- is_finite_SF_B2SF, E; reflexivity|]. rewrite <- SF2R_B2SF, E. cbn [SF2R cond_Zopp]. unfold F2R. cbn [Fnum Fexp]. rewrite bpow_neg. change (Z.pow 2 64) with 18446744073709551616%Z. rewrite ?opp_IZR. lra.
Qed.
End Il.

(** ** q *)
Lemma split_q (N : num) z0 y r s : k1_h N (Li2_q_P N) (Li2_q_Q N) y r s = add N r (div N (mul N (mul N s y) (evalN N (fun i => nth i [y] z0) xPq)) (evalN N (fun i => nth i [y] z0) xQq)).
Proof. reflexivity. Qed.
Lemma evP_q y : evalR (fun i => nth i [y] 0) xPq = plit Pq (y - / 4).
Proof. cbv [xPq Pq Li2_q_P plit lit NumLit NumE add mul sub aref nth horner rev app fold_left evalR litp fst snd]. rewrite ?lit25. ring. Qed.
Lemma evQ_q y : evalR (fun i => nth i [y] 0) xQq = plit Qq (y - / 4).
Proof. cbv [xQq Qq Li2_q_Q plit lit NumLit NumE add mul sub aref nth horner rev app fold_left evalR litp fst snd]. rewrite ?lit25. ring. Qed.
Lemma ckP_q : checkp 113 xPq (grid 0 (2 ^ (39 - Z.of_nat 8)) (2 ^ 8)) (relb 113 885301) = true.
Proof. vm_compute. reflexivity. Qed.
Lemma ckQ_q : checkp 113 xQq (grid 0 (2 ^ (39 - Z.of_nat 8)) (2 ^ 8)) (relb 113 1137642) = true.
Proof. vm_compute. reflexivity. Qed.
Section Iq.
Variable L : libm 113 16384.
Hypothesis HL : libm_ok (Hp := Hp113) (He := He113) L.
Notation N := (B128 L).
Lemma u_q : u 113 = / 2 ^ 113.
Proof. unfold Fcalc.u. change (- (113))%Z with (Zneg 113). rewrite bp2. reflexivity. Qed.
Lemma zero_le_q : evalR (fun i => nth i [0] 0) xPq <= 8 / 5 * evalR (fun i => nth i [0] 0) xQq.
Proof. apply (zero_gen 113 16384 Hp113 He113 ltac:(lia) ltac:(lia) ltac:(lia) L); vm_compute; reflexivity. Qed.
Lemma Li2_acc_q (x : car N) : is_finite x = true ->
  A 113 16384 (Li2_q N x) (ReLi 2 (B2R x)) (bound 113 16384 3378 (B2R x)).
Proof.
  rewrite Li2_q_shape. pose proof u_q as EU.
  assert (DP : Rabs (litR 314159265358979323846264338327950288 (-35) - PI) <= 5 / 10 ^ 36).
  { eapply Rle_trans; [apply PI_lit with (d := 43 / 10 ^ 37)|lra]. p10 35%nat. apply Rabs_le. lra. }
  assert (CK : forall sg z e c, (3 <= z)%Z -> (sg = 1 \/ sg = -1) -> check 113 e [[]] (c * 2 ^ (138 - 113)) = true ->
    (e = EDiv (EMul (K 314159265358979323846264338327950288 (-35)) (K 314159265358979323846264338327950288 (-35))) (K z 0) /\ sg = 1 \/ e = EDiv (EMul (EOpp (K 314159265358979323846264338327950288 (-35))) (K 314159265358979323846264338327950288 (-35))) (K z 0) /\ sg = -1) ->
    A 113 16384 (evalN N (fun _ => B754_zero false) e) (sg * (PI * PI / IZR z)) ((IZR c / 4 + 1) * u 113)).
  { intros sg z e c Z3 SG C E. refine (pi_const 113 16384 Hp113 He113 L 314159265358979323846264338327950288 (-35) _ sg z c e ltac:(lia) ltac:(lia) ltac:(lia) DP _ _ Z3 SG C E); [lra|rewrite EU; lra]. }
  pose proof (CK (-1) 6%Z (EDiv (EMul (EOpp (K 314159265358979323846264338327950288 (-35))) (K 314159265358979323846264338327950288 (-35))) (K 6 0)) 34%Z ltac:(lia) ltac:(right; reflexivity) ltac:(vm_compute; reflexivity) ltac:(right; split; reflexivity)) as C6m.
  pose proof (CK (-1) 12%Z (EDiv (EMul (EOpp (K 314159265358979323846264338327950288 (-35))) (K 314159265358979323846264338327950288 (-35))) (K 12 0)) 17%Z ltac:(lia) ltac:(right; reflexivity) ltac:(vm_compute; reflexivity) ltac:(right; split; reflexivity)) as C12m.
  pose proof (CK 1 6%Z (EDiv (EMul (K 314159265358979323846264338327950288 (-35)) (K 314159265358979323846264338327950288 (-35))) (K 6 0)) 34%Z ltac:(lia) ltac:(left; reflexivity) ltac:(vm_compute; reflexivity) ltac:(left; split; reflexivity)) as C6.
  pose proof (CK 1 3%Z (EDiv (EMul (K 314159265358979323846264338327950288 (-35)) (K 314159265358979323846264338327950288 (-35))) (K 3 0)) 67%Z ltac:(lia) ltac:(left; reflexivity) ltac:(vm_compute; reflexivity) ltac:(left; split; reflexivity)) as C3. clear CK.
  cbn [evalN] in C6m, C12m, C6, C3. assert (U0 : 0 < u 113) by (rewrite EU; apply Rinv_0_lt_compat, pow_lt; lra).
  apply (Li2_acc 113 16384 Hp113 He113 ltac:(lia) ltac:(lia) ltac:(lia) ltac:(lia) ltac:(lia) L HL _ _ 3378 ltac:(lra)).
  - apply (core_gen 113 16384 Hp113 He113 ltac:(lia) ltac:(lia) ltac:(lia) ltac:(lia) L _ xPq xQq 8 885301 1137642 (fun y => y * (plit Pq (y - / 4) / plit Qq (y - / 4))) (491 / 10 ^ 38) 3378).
    + intros y r s. exact (split_q N (B754_zero false) y r s).
    + exact ckP_q.
    + exact ckQ_q.
    + lia.
    + intros y Hy. split; [rewrite evP_q, evQ_q; reflexivity|exact (proj2 (q_ok y Hy))].
    + lra.
    + exact zero_le_q.
    + lra.
    + lra.
    + rewrite EU. lra.
    + rewrite EU. lra.
    + rewrite EU. lra.
  - refine (A_weak _ _ _ _ _ _ (eq_ind _ (fun v => A 113 16384 _ v _) C6m _ _) _); [ring|lra].
  - refine (A_weak _ _ _ _ _ _ (eq_ind _ (fun v => A 113 16384 _ v _) C12m _ _) _); [ring|lra].
  - refine (A_weak _ _ _ _ _ _ (eq_ind _ (fun v => A 113 16384 _ v _) C6 _ _) _); [ring|lra].
  - refine (A_weak _ _ _ _ _ _ (eq_ind _ (fun v => A 113 16384 _ v _) C3 _ _) _); [ring|lra].
  - assert (E : B2SF (blit 113 16384 Hp113 He113 5 (-1)) = SpecFloat.S754_finite false 5192296858534827628530496329220096 (- 113)) by (vm_compute; reflexivity).
    change (lit (NumB 113 16384 Hp113 He113 L) 5 (-1)) with (blit 113 16384 Hp113 He113 5 (-1)). split; [rewrite <- is_finite_SF_B2SF, E; reflexivity|]. rewrite <- SF2R_B2SF, E. cbn [SF2R cond_Zopp]. unfold F2R. cbn [Fnum Fexp]. rewrite bpow_neg. change (Z.pow 2 113) with 10384593717069655257060992658440192%Z. rewrite ?opp_IZR. lra.
  - assert (E : B2SF (blit 113 16384 Hp113 He113 (-5) (-1)) = SpecFloat.S754_finite true 5192296858534827628530496329220096 (- 113)) by (vm_compute; reflexivity).
    change (lit (NumB 113 16384 Hp113 He113 L) (-5) (-1)) with (blit 113 16384 Hp113 He113 (-5) (-1)). split; [rewrite <- is_finite_SF_B2SF, E; reflexivity|]. rewrite <- SF2R_B2SF, E. cbn [SF2R cond_Zopp]. unfold F2R. cbn [Fnum Fexp]. rewrite bpow_neg. change (Z.pow 2 113) with 10384593717069655257060992658440192%Z. rewrite ?opp_IZR. lra.
Qed.
End Iq.
