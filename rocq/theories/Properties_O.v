(** * C37, C41: the Fortran functions — what they do to their argument, and what they return *)
From Coq Require Import ZArith Reals List Bool Lra Lia Psatz.
From Coquelicot Require Import Coquelicot.
From Flocq Require Import Core IEEE754.BinarySingleNaN.
From Interval Require Import Tactic.
From Verif Require Import Num NumR NumB NumB_facts Spec Eval_R Consts Polylog Model_LiR Model_Cl16 Model_C Model_F Proof_Float Libm Proof_Li2 Properties_B Properties_C Cl_full CvsCpp Properties_N.
Import ListNotations.
Local Open Scope R_scope.

(** A Fortran function of the model returns (its value, what the caller's argument variable holds afterwards). *)
Section AnyArithmetic.
Variable N : num.
Definition keeps {A B} (f : A -> B * A) := forall x, snd (f x) = x.
Ltac ifs := repeat match goal with |- context [if ?b then _ else _] => destruct b end.
Theorem C37_dli2_dli3_keep : keeps (f_dli2 N) /\ keeps (f_dli3 N).
Proof. split; intros x; [unfold f_dli2|unfold f_dli3]; cbv zeta; ifs; reflexivity. Qed.
Theorem C37_complex_keep u : keeps (f_cdli2 N u) /\ keeps (f_cdli3 N) /\ keeps (f_cdli4 N) /\ keeps (f_cdli5 N) /\ keeps (f_cdli6 N).
Proof. repeat split; intros x; [unfold f_cdli2|unfold f_cdli3|unfold f_cdli4|unfold f_cdli5|unfold f_cdli6]; cbv zeta; ifs; reflexivity. Qed.

(** the Clausen functions leave the reduced angle in the caller's variable *)
Definition reduced (x : N) : N :=
  let pi := lit N 314159265358979324 (-17) in
  let x1 := if ltb N x (lit N 0 0) then opp N x else x in
  let x2 := if leb N (mul N (lit N 2 0) pi) x1 then nfmod N x1 (mul N (lit N 2 0) pi) else x1 in
  if ltb N pi x2 then add N (sub N (lit N 628125 (-5)) x2) (lit N 19353071795864769253 (-22)) else x2.
Theorem C37_clausen_left x : snd (f_dcl2 N x) = reduced x /\ snd (f_dcl3 N x) = reduced x /\ snd (f_dcl4 N x) = reduced x /\ snd (f_dcl5 N x) = reduced x /\ snd (f_dcl6 N x) = reduced x.
Proof.
  unfold reduced. repeat split.
  - unfold f_dcl2. cbv zeta. destruct (ltb N x (lit N 0 0)); cbv iota; match goal with |- context [if leb N ?a ?b then _ else _] => destruct (leb N a b) end; ifs; reflexivity.
  - unfold f_dcl3. cbv zeta. destruct (ltb N x (lit N 0 0)); cbv iota; match goal with |- context [if leb N ?a ?b then _ else _] => destruct (leb N a b) end; ifs; reflexivity.
  - unfold f_dcl4. cbv zeta. destruct (ltb N x (lit N 0 0)); cbv iota; match goal with |- context [if leb N ?a ?b then _ else _] => destruct (leb N a b) end; ifs; reflexivity.
  - unfold f_dcl5. cbv zeta. destruct (ltb N x (lit N 0 0)); cbv iota; match goal with |- context [if leb N ?a ?b then _ else _] => destruct (leb N a b) end; ifs; reflexivity.
  - unfold f_dcl6. cbv zeta. destruct (ltb N x (lit N 0 0)); cbv iota; match goal with |- context [if leb N ?a ?b then _ else _] => destruct (leb N a b) end; ifs; reflexivity.
Qed.
(** dli4 leaves 1/x for x < -1 and for x > 1 (and NaN), x otherwise *)
Theorem C37_dli4_left x : snd (f_dli4 N x) =
  if ltb N x (lit N (-1) 0) then div N (lit N 1 0) x
  else if eqb N x (lit N (-1) 0) || eqb N x (lit N 0 0) || ltb N x (lit N 1 0) || eqb N x (lit N 1 0) then x
  else div N (lit N 1 0) x.
Proof.
  unfold f_dli4. cbv zeta. destruct (ltb N x (lit N (-1) 0)); [ifs; reflexivity|].
  destruct (eqb N x (lit N (-1) 0)); [reflexivity|]. destruct (eqb N x (lit N 0 0)); [reflexivity|].
  destruct (ltb N x (lit N 1 0)) eqn:E; cbn [orb]; [ifs; reflexivity|]. destruct (eqb N x (lit N 1 0)); [reflexivity|]. ifs; reflexivity.
Qed.
End AnyArithmetic.

(** ** exact arithmetic: the argument survives exactly for angles in [0, pi] *)
Lemma pi_d_lit : litR 314159265358979324 (-17) = pi_d.
Proof. rewrite litR_dec. unfold pi_d. change (10 ^ 17)%Z with (10 ^ Z.of_nat 17)%Z. rewrite p10. reflexivity. Qed.
Lemma reduced_R e x : let k := IZR (redk pi_d (Rabs x)) in let y := Rabs x - 2 * pi_d * k in
  0 <= k /\ 0 <= y < 2 * pi_d /\ reduced (NumR e) (Some x) = Some (if Rlt_dec pi_d y then two_pi_d - y else y).
Proof.
  assert (P : 0 < pi_d) by (unfold pi_d; lra). intros k y. destruct (redk_ok pi_d (Rabs x) P (Rabs_pos x)) as [K Y].
  split; [apply (IZR_le 0); exact K|]. split; [exact Y|]. unfold reduced.
  assert (A : (if ltb (NumR e) (Some x) (lit (NumR e) 0 0) then opp (NumR e) (Some x) else Some x) = Some (Rabs x)).
  { cbn [NumR ltb lit ocmp opp]. rewrite litR_int. destruct (Rlt_dec x 0) as [H|H].
    - rewrite Rltb_true by exact H. rewrite Rabs_left by exact H. reflexivity.
    - rewrite Rltb_false by lra. rewrite Rabs_pos_eq by lra. reflexivity. }
  rewrite A. change (lit (NumR e) 314159265358979324 (-17)) with (Some (litR 314159265358979324 (-17))). rewrite pi_d_lit.
  rewrite (redk_R pi_d (Rabs x) e P). fold k. fold y. cbn [NumR ltb ocmp add sub lit lift2].
  destruct (Rlt_dec pi_d y) as [H|H]; [rewrite Rltb_true by exact H|rewrite Rltb_false by lra]; [|reflexivity].
  f_equal. unfold two_pi_d. rewrite !litR_dec. change (10 ^ 5)%Z with (10 ^ Z.of_nat 5)%Z. change (10 ^ 22)%Z with (10 ^ Z.of_nat 22)%Z. rewrite !p10. ring.
Qed.
Theorem C37_clausen_kept_iff e x : reduced (NumR e) (Some x) = Some x <-> 0 <= x <= pi_d.
Proof.
  destruct (reduced_R e x) as (K & Y & E). set (k := IZR (redk pi_d (Rabs x))) in *. set (y := Rabs x - 2 * pi_d * k) in *. rewrite E.
  assert (P : 3.14 < pi_d < 3.15) by (unfold pi_d; lra). assert (T : Rabs (two_pi_d - 2 * pi_d) <= / 10 ^ 6) by (unfold two_pi_d, pi_d; apply Rabs_le; lra). apply Rabs_le_between in T.
  split.
  - intros H. injection H as H. destruct (Rlt_dec pi_d y) as [L|L].
    + exfalso. assert (T' : two_pi_d < 2 * pi_d) by (unfold two_pi_d, pi_d; lra).
      destruct (Rle_lt_dec 0 x) as [X|X].
      * assert (XA : y = x - 2 * pi_d * k) by (unfold y; rewrite (Rabs_pos_eq x) by exact X; reflexivity). nra.
      * assert (Rabs x <= 1 / 10 ^ 6) by (rewrite Rabs_left by exact X; lra). assert (y <= Rabs x) by (unfold y; nra). lra.
    + assert (0 <= pi_d * k) by (apply Rmult_le_pos; lra). lra.
  - intros [A B]. assert (Rabs x = x) by (apply Rabs_pos_eq; lra). assert (K0 : redk pi_d (Rabs x) = 0%Z) by (unfold redk; destruct (Rle_dec (2 * pi_d) (Rabs x)); [lra|reflexivity]).
    assert (y = x) by (unfold y, k; rewrite K0, H; ring). destruct (Rlt_dec pi_d y); [lra|congruence].
Qed.
Theorem C37_dli4_kept_iff e x : snd (f_dli4 (NumR e) (Some x)) = Some x <-> -1 <= x <= 1.
Proof.
  rewrite C37_dli4_left. cbn [NumR ltb eqb lit ocmp div]. rewrite !litR_int. unfold Reqb.
  destruct (Rlt_dec x (-1)) as [A|A].
  - rewrite Rltb_true by exact A. rewrite odiv_some by lra. split; [|lra]. intros H. injection H as H. exfalso.
    assert (x * x = 1) by (rewrite <- H at 2; field; lra). nra.
  - rewrite Rltb_false by lra. destruct (Req_EM_T x (-1)); [subst; split; [lra|reflexivity]|]. destruct (Req_EM_T x 0); [subst; split; [lra|reflexivity]|].
    destruct (Rlt_dec x 1) as [B|B]; [rewrite Rltb_true by exact B; split; [lra|reflexivity]|]. rewrite Rltb_false by lra.
    destruct (Req_EM_T x 1); [subst; split; [lra|reflexivity]|]. cbn [orb]. rewrite odiv_some by lra. split; [|lra].
    intros H. injection H as H. exfalso. assert (x * x = 1) by (rewrite <- H at 2; field; lra). nra.
Qed.

(** ** in double precision: every negative angle down to -3 comes back with its sign flipped; dli4(2) comes back as 1/2 *)
Lemma lt_pi L (x : f64) : Bltb x (lit (B64 L) 0 0) = true -> Bleb (lit (B64 L) (-3) 0) x = true ->
  reduced (B64 L) x = Bopp x /\ Bopp x <> x.
Proof.
  intros H1 H2. set (p2 := mul (B64 L) (lit (B64 L) 2 0) (lit (B64 L) 314159265358979324 (-17))).
  assert (F : is_finite x = true).
  { destruct x as [s|[]| |s m e B]; try reflexivity; exfalso; revert H1 H2; destruct L; vm_compute; discriminate. }
  destruct (litZ_exact 53 1024 Hp53 He53 ltac:(lia) 0 ltac:(lia)) as [V0 F0]. destruct (litZ_exact 53 1024 Hp53 He53 ltac:(lia) (-3) ltac:(lia)) as [V3 F3].
  destruct (litZ_exact 53 1024 Hp53 He53 ltac:(lia) 3 ltac:(lia)) as [W3 G3].
  change (lit (B64 L) 0 0) with (blit 53 1024 Hp53 He53 0 0) in H1. change (lit (B64 L) (-3) 0) with (blit 53 1024 Hp53 He53 (-3) 0) in H2.
  rewrite (Bltb_correct 53 1024 _ _ F F0), V0 in H1. rewrite (Bleb_correct 53 1024 _ _ F3 F), V3 in H2.
  assert (X : -3 <= B2R x < 0). { revert H1 H2. case Rlt_bool_spec; [|discriminate]. case Rle_bool_spec; [|discriminate]. intros; lra. }
  assert (FO : is_finite (Bopp x) = true) by (rewrite is_finite_Bopp; exact F). assert (VO : B2R (Bopp x) = - B2R x) by apply B2R_Bopp.
  assert (FP : is_finite p2 = true) by (destruct L; vm_compute; reflexivity).
  assert (F1 : is_finite (lit (B64 L) 314159265358979324 (-17) : f64) = true) by (destruct L; vm_compute; reflexivity).
  assert (P2 : 3 < B2R p2).
  { assert (Q : Bltb (blit 53 1024 Hp53 He53 3 0) p2 = true) by (destruct L; vm_compute; reflexivity). rewrite (Bltb_correct 53 1024 _ _ G3 FP), W3 in Q. revert Q. case Rlt_bool_spec; [auto|discriminate]. }
  assert (P1 : 3 < B2R (lit (B64 L) 314159265358979324 (-17) : f64)).
  { assert (Q : Bltb (blit 53 1024 Hp53 He53 3 0) (lit (B64 L) 314159265358979324 (-17)) = true) by (destruct L; vm_compute; reflexivity). rewrite (Bltb_correct 53 1024 _ _ G3 F1), W3 in Q. revert Q. case Rlt_bool_spec; [auto|discriminate]. }
  split.
  - unfold reduced. cbv zeta. fold p2.
    assert (E1 : ltb (B64 L) x (lit (B64 L) 0 0) = true). { change (Bltb x (blit 53 1024 Hp53 He53 0 0) = true). rewrite (Bltb_correct 53 1024 _ _ F F0), V0. exact H1. }
    rewrite E1. change (opp (B64 L) x) with (Bopp x).
    assert (E2 : leb (B64 L) p2 (Bopp x) = false). { change (Bleb p2 (Bopp x) = false). rewrite (Bleb_correct 53 1024 _ _ FP FO). apply Rle_bool_false. lra. }
    rewrite E2.
    assert (E3 : ltb (B64 L) (lit (B64 L) 314159265358979324 (-17)) (Bopp x) = false). { change (Bltb (lit (B64 L) 314159265358979324 (-17)) (Bopp x) = false). rewrite (Bltb_correct 53 1024 _ _ F1 FO). apply Rlt_bool_false. lra. }
    rewrite E3. reflexivity.
  - intros E. rewrite E in VO. lra.
Qed.
Theorem C37_clausen_refuted L (x : f64) : Bltb x (lit (B64 L) 0 0) = true -> Bleb (lit (B64 L) (-3) 0) x = true ->
  Bopp x <> x /\ snd (f_dcl2 (B64 L) x) = Bopp x /\ snd (f_dcl3 (B64 L) x) = Bopp x /\ snd (f_dcl4 (B64 L) x) = Bopp x /\ snd (f_dcl5 (B64 L) x) = Bopp x /\ snd (f_dcl6 (B64 L) x) = Bopp x.
Proof.
  intros A B. destruct (lt_pi L x A B) as [E D]. destruct (C37_clausen_left (B64 L) x) as (H2 & H3 & H4 & H5 & H6). rewrite H2, H3, H4, H5, H6, E. auto 10.
Qed.
Example C37_clausen_refuted_case L : let x := lit (B64 L) (-1) 0 in Bltb x (lit (B64 L) 0 0) = true /\ Bleb (lit (B64 L) (-3) 0) x = true.
Proof. destruct L. split; vm_compute; reflexivity. Qed.
Theorem C37_dli4_refuted L : let x := lit (B64 L) 2 0 in Beqb (snd (f_dli4 (B64 L) x)) (lit (B64 L) 5 (-1)) = true.
Proof.
  intros x. rewrite C37_dli4_left. replace (ltb (B64 L) x (lit (B64 L) (-1) 0)) with false by (destruct L; vm_compute; reflexivity).
  replace (eqb (B64 L) x (lit (B64 L) (-1) 0) || eqb (B64 L) x (lit (B64 L) 0 0) || ltb (B64 L) x (lit (B64 L) 1 0) || eqb (B64 L) x (lit (B64 L) 1 0))%bool with false by (destruct L; vm_compute; reflexivity).
  destruct L; vm_compute; reflexivity.
Qed.
