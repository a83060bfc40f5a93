(** * The rational approximations inside Cl2 .. Cl6, in exact arithmetic

    For both branches of every Clausen routine: the model's numerator and
    denominator at y (or y - PI^2/8) are defined, the denominator is positive,
    and the quotient is within the stated distance of the reference function
    [eN n] / [eF n] of Clausen_ref.v, for all 0 <= y <= 2.4675. *)
From Coq Require Import Reals Lra Lia Psatz ZArith List Bool.
From Bignums Require Import BigZ.
From Verif Require Import Num NumR Eval_R Cheb Cheb_big Poly_check Model_Cl16 Cl_shape Clausen_ref Proof_Li2.
Import ListNotations.
Local Open Scope R_scope.

Definition sh (K u e : Z) (P : list (Z * Z)) : list Z * Z := acomp (zs_of K P) u e e.

Lemma scale_pos K P Q y : scale_ok K P = true -> scale_ok K Q = true -> 0 < pz (zs_of K Q) y ->
  0 < plit Q y /\ plit P y / plit Q y = pz (zs_of K P) y / pz (zs_of K Q) y.
Proof.
  intros HP HQ H. assert (K0 : (0 <= K)%Z) by (unfold scale_ok in HP; rewrite andb_true_iff, Z.leb_le in HP; tauto).
  rewrite (plit_pz K P), (plit_pz K Q) by assumption.
  assert (0 < IZR (10 ^ K)) by (apply (IZR_lt 0), Z.pow_pos_nonneg; lia). split; [apply Rdiv_lt_0_compat; lra|]. field. lra.
Qed.

(** the same on machine-word bignums *)
Definition ratio_listB (ln ld hn hd : Z) (l : list iv) (bp bq bw : list bigZ) (DW en ed : Z) : bool :=
  let diff := bsub (bscal (BigZ.of_Z DW) bp) (bmul bq bw) in
  ((0 <? DW) && (0 <? ed))%Z && negb (match l with [] => true | _ => false end) && covers ln ld hn hd l && forallb (ratio_iv diff bq DW en ed) l.
Lemma ratio_listB_ok ln ld hn hd l bp bq bw DW en ed : ratio_listB ln ld hn hd l bp bq bw DW en ed = true ->
  forall x, IZR ln / IZR ld <= x <= IZR hn / IZR hd ->
  0 < pz (toZ bq) x /\ Rabs (pz (toZ bp) x / pz (toZ bq) x - pz (toZ bw) x / IZR DW) <= IZR en / IZR ed.
Proof.
  unfold ratio_listB. rewrite !andb_true_iff, !Z.ltb_lt, forallb_forall. intros [[[[HD He] N] C] F] x Hx.
  destruct (covers_ok l ln ld hn hd C ltac:(intros ->; discriminate) x Hx) as (i & Hi & Ii). specialize (F _ Hi).
  destruct (ratio_iv_ok _ _ _ _ _ _ HD He F x Ii) as [Q0 U]. rewrite bsub_ok, bscal_ok, bmul_ok, BigZ.spec_of_Z in U.
  rewrite pz_sub, pz_scal, pz_mul in U. split; [exact Q0|].
  assert (0 < IZR DW) by (apply (IZR_lt 0); lia).
  set (p := pz (toZ bp) x) in *. set (q := pz (toZ bq) x) in *. set (w := pz (toZ bw) x) in *.
  replace (p / q - w / IZR DW) with ((IZR DW * p - q * w) * / (q * IZR DW)) by (field; lra).
  rewrite Rabs_mult, (Rabs_pos_eq (/ _)) by (left; apply Rinv_0_lt_compat; nra).
  apply (Rmult_le_reg_r (q * IZR DW)); [nra|]. rewrite Rmult_assoc, Rinv_l, Rmult_1_r by nra.
  replace (q * IZR DW) with (IZR DW * q) by ring. exact U.
Qed.
Fixpoint bacomp (l : list bigZ) (u e : bigZ) : list bigZ * bigZ :=
  match l with
  | [] => ([], BigZ.one)
  | a :: l' => let '(p, s) := bacomp l' u e in let s' := BigZ.mul e s in (badd [BigZ.mul a s'] (bmul [u; e] p), s')
  end.
Lemma padd_nil_r a : padd a [] = a. Proof. destruct a; reflexivity. Qed.
Lemma bacomp_ok l u e : acomp (toZ l) (BigZ.to_Z u) (BigZ.to_Z e) (BigZ.to_Z e) = (toZ (fst (bacomp l u e)), BigZ.to_Z (snd (bacomp l u e))).
Proof.
  induction l as [|a l IH]; cbn [toZ map acomp bacomp fst snd]; [rewrite BigZ.spec_1; reflexivity|].
  change (map BigZ.to_Z l) with (toZ l). rewrite IH. destruct (bacomp l u e) as [p s]. cbn [fst snd].
  rewrite badd_ok, bmul_ok, BigZ.spec_mul. f_equal. cbn [toZ map]. rewrite !BigZ.spec_mul, Z.mul_assoc. reflexivity.
Qed.
Definition shb (K u e : Z) (P : list (Z * Z)) : list bigZ * bigZ := bacomp (ofZl (zs_of K P)) (BigZ.of_Z u) (BigZ.of_Z e).
Lemma shb_ok K u e P : sh K u e P = (toZ (fst (shb K u e P)), BigZ.to_Z (snd (shb K u e P))).
Proof. unfold sh, shb. pose proof (bacomp_ok (ofZl (zs_of K P)) (BigZ.of_Z u) (BigZ.of_Z e)) as H. rewrite toZ_ofZl, !BigZ.spec_of_Z in H. exact H. Qed.
(** the common factor is removed when both shifts have the same scale, else cross-multiplied *)
Definition shPQb (K u e : Z) (P Q : list (Z * Z)) : list bigZ * list bigZ :=
  let '(p, s) := shb K u e P in let '(q, t) := shb K u e Q in
  if BigZ.eqb s t then (p, q) else (bscal t p, bscal s q).
Lemma shift_posb K u e P Q y : (0 < e)%Z -> scale_ok K P = true -> scale_ok K Q = true -> 0 < pz (toZ (snd (shPQb K u e P Q))) y ->
  0 < plit Q (y + IZR u / IZR e) /\
  plit P (y + IZR u / IZR e) / plit Q (y + IZR u / IZR e) = pz (toZ (fst (shPQb K u e P Q))) y / pz (toZ (snd (shPQb K u e P Q))) y.
Proof.
  intros He HP HQ H. unfold shPQb in *. assert (E0 : 0 < IZR e) by (apply (IZR_lt 0); lia).
  pose proof (shb_ok K u e P) as BP. pose proof (shb_ok K u e Q) as BQ. unfold sh in BP, BQ.
  destruct (acomp_ok (zs_of K P) u e e y He) as [SP EP]. destruct (acomp_ok (zs_of K Q) u e e y He) as [SQ EQ].
  rewrite BP in SP, EP. rewrite BQ in SQ, EQ. destruct (shb K u e P) as [p s]. destruct (shb K u e Q) as [q t]. cbn [fst snd] in *.
  replace ((IZR u + IZR e * y) / IZR e) with (y + IZR u / IZR e) in * by (field; lra). set (z := y + IZR u / IZR e) in *.
  assert (S0 : 0 < IZR (BigZ.to_Z s)) by (apply (IZR_lt 0); exact SP). assert (T0 : 0 < IZR (BigZ.to_Z t)) by (apply (IZR_lt 0); exact SQ).
  destruct (BigZ.eqb s t) eqn:B; cbn [fst snd] in *.
  - rewrite BigZ.spec_eqb, Z.eqb_eq in B. rewrite EP, EQ, B. rewrite EQ in H.
    assert (Q0 : 0 < pz (zs_of K Q) z) by (apply (Rmult_lt_reg_l (IZR (BigZ.to_Z t))); lra).
    destruct (scale_pos K P Q z HP HQ Q0) as [N E]. split; [exact N|]. rewrite E. field. split; lra.
  - rewrite !bscal_ok, !pz_scal, EP, EQ. rewrite bscal_ok, pz_scal, EQ in H.
    assert (Q0 : 0 < pz (zs_of K Q) z) by (apply (Rmult_lt_reg_l (IZR (BigZ.to_Z s) * IZR (BigZ.to_Z t))); [nra|lra]).
    destruct (scale_pos K P Q z HP HQ Q0) as [N E]. split; [exact N|]. rewrite E. field. repeat split; lra.
Qed.

Definition ud : Z := Eval vm_compute in (- (314159265358979324 * 314159265358979324))%Z.
Definition ed : Z := Eval vm_compute in (8 * 10 ^ 34)%Z.
Definition ul : Z := Eval vm_compute in (- (314159265358979323846264338327950288 * 314159265358979323846264338327950288))%Z.
Definition el : Z := Eval vm_compute in (8 * 10 ^ 70)%Z.
Definition ivs (m : Z) : list iv := split_iv m 0 987 400 (Z.to_nat m).
Definition chk0 (P Q : list (Z * Z)) (W : list Z) (D K m en ed : Z) : bool :=
  scale_ok K P && scale_ok K Q && ratio_list 0 1 987 400 (ivs m) (zs_of K P) (zs_of K Q) W D en ed.
Definition chkS (u e : Z) (P Q : list (Z * Z)) (W : list Z) (D K m en ed : Z) : bool :=
  (0 <? e)%Z && scale_ok K P && scale_ok K Q && (let '(p, q) := shPQb K u e P Q in ratio_listB 0 1 987 400 (ivs m) p q (ofZl W) D en ed).
Lemma chk0_ok P Q W D K m en ed : chk0 P Q W D K m en ed = true -> forall y, 0 <= y <= 987 / 400 ->
  0 < plit Q y /\ Rabs (plit P y / plit Q y - pz W y / IZR D) <= IZR en / IZR ed.
Proof.
  unfold chk0. rewrite !andb_true_iff. intros [[H1 H2] H] y Hy.
  destruct (ratio_list_ok _ _ _ _ _ _ _ _ _ _ _ H y ltac:(lra)) as [Q0 U]. destruct (scale_pos K P Q y H1 H2 Q0) as [N E]. split; [exact N|]. rewrite E. exact U.
Qed.
Lemma chkS_ok u e P Q W D K m en ed : chkS u e P Q W D K m en ed = true -> forall y, 0 <= y <= 987 / 400 ->
  0 < plit Q (y + IZR u / IZR e) /\ Rabs (plit P (y + IZR u / IZR e) / plit Q (y + IZR u / IZR e) - pz W y / IZR D) <= IZR en / IZR ed.
Proof.
  unfold chkS. rewrite !andb_true_iff, Z.ltb_lt. intros [[[H0 H1] H2] H] y Hy.
  pose proof (shift_posb K u e P Q y H0 H1 H2) as SB. destruct (shPQb K u e P Q) as [p q]. cbn [fst snd] in SB.
  destruct (ratio_listB_ok _ _ _ _ _ _ _ _ _ _ _ H y ltac:(lra)) as [Q0 U]. rewrite toZ_ofZl in U. destruct (SB Q0) as [N E]. split; [exact N|]. rewrite E. exact U.
Qed.

Ltac poly_eval := cbn [NumR add mul sub div car aref nth lit lift2]; f_equal.
Lemma ev_p2dN ep z : Cl2_d_p (NumR ep) (Some z) = Some (plit (Cl2_d_P NumLit) z).
Proof. unfold Cl2_d_p, Cl2_d_P. poly_eval. cbn [plit lit NumLit]. unfold litp. cbn [fst snd]. ring. Qed.
Lemma ev_q2dN ep z : Cl2_d_q (NumR ep) (Some z) = Some (plit (Cl2_d_Q NumLit) z).
Proof. unfold Cl2_d_q, Cl2_d_Q. poly_eval. cbn [plit lit NumLit]. unfold litp. cbn [fst snd]. ring. Qed.
Lemma c2dN : chk0 (Cl2_d_P NumLit) (Cl2_d_Q NumLit) WN2 DN2 25 4 120 (10 ^ 20) = true.
Proof. vm_compute. reflexivity. Qed.
Lemma r2dN ep y : 0 <= y <= 987 / 400 -> exists p q, Cl2_d_p (NumR ep) (Some y) = Some p /\ Cl2_d_q (NumR ep) (Some y) = Some q /\
  0 < q /\ Rabs (p / q - eN 2 y) <= 120 / 10 ^ 20.
Proof.
  intros Hy. destruct (chk0_ok _ _ _ _ _ _ _ _ c2dN y Hy) as [A B].
  eexists. eexists. split; [apply ev_p2dN|]. split; [apply ev_q2dN|]. split; [exact A|]. p10 20%nat in B. exact B.
Qed.
Lemma ev_p3dN ep z : Cl3_d_p (NumR ep) (Some z) = Some (plit (Cl3_d_P NumLit) z).
Proof. unfold Cl3_d_p, Cl3_d_P. poly_eval. cbn [plit lit NumLit]. unfold litp. cbn [fst snd]. ring. Qed.
Lemma ev_q3dN ep z : Cl3_d_q (NumR ep) (Some z) = Some (plit (Cl3_d_Q NumLit) z).
Proof. unfold Cl3_d_q, Cl3_d_Q. poly_eval. cbn [plit lit NumLit]. unfold litp. cbn [fst snd]. ring. Qed.
Lemma c3dN : chk0 (Cl3_d_P NumLit) (Cl3_d_Q NumLit) WN3 DN3 23 4 30 (10 ^ 18) = true.
Proof. vm_compute. reflexivity. Qed.
Lemma r3dN ep y : 0 <= y <= 987 / 400 -> exists p q, Cl3_d_p (NumR ep) (Some y) = Some p /\ Cl3_d_q (NumR ep) (Some y) = Some q /\
  0 < q /\ Rabs (p / q - eN 3 y) <= 30 / 10 ^ 18.
Proof.
  intros Hy. destruct (chk0_ok _ _ _ _ _ _ _ _ c3dN y Hy) as [A B].
  eexists. eexists. split; [apply ev_p3dN|]. split; [apply ev_q3dN|]. split; [exact A|]. p10 18%nat in B. exact B.
Qed.
Lemma ev_p4dN ep z : Cl4_d_p (NumR ep) (Some z) = Some (plit (Cl4_d_P NumLit) z).
Proof. unfold Cl4_d_p, Cl4_d_P. poly_eval. cbn [plit lit NumLit]. unfold litp. cbn [fst snd]. ring. Qed.
Lemma ev_q4dN ep z : Cl4_d_q (NumR ep) (Some z) = Some (plit (Cl4_d_Q NumLit) z).
Proof. unfold Cl4_d_q, Cl4_d_Q. poly_eval. cbn [plit lit NumLit]. unfold litp. cbn [fst snd]. ring. Qed.
Lemma c4dN : chk0 (Cl4_d_P NumLit) (Cl4_d_Q NumLit) WN4 DN4 24 4 12 (10 ^ 18) = true.
Proof. vm_compute. reflexivity. Qed.
Lemma r4dN ep y : 0 <= y <= 987 / 400 -> exists p q, Cl4_d_p (NumR ep) (Some y) = Some p /\ Cl4_d_q (NumR ep) (Some y) = Some q /\
  0 < q /\ Rabs (p / q - eN 4 y) <= 12 / 10 ^ 18.
Proof.
  intros Hy. destruct (chk0_ok _ _ _ _ _ _ _ _ c4dN y Hy) as [A B].
  eexists. eexists. split; [apply ev_p4dN|]. split; [apply ev_q4dN|]. split; [exact A|]. p10 18%nat in B. exact B.
Qed.
Lemma ev_p5dN ep z : Cl5_d_p (NumR ep) (Some z) = Some (plit (Cl5_d_P NumLit) z).
Proof. unfold Cl5_d_p, Cl5_d_P. poly_eval. cbn [plit lit NumLit]. unfold litp. cbn [fst snd]. ring. Qed.
Lemma ev_q5dN ep z : Cl5_d_q (NumR ep) (Some z) = Some (plit (Cl5_d_Q NumLit) z).
Proof. unfold Cl5_d_q, Cl5_d_Q. poly_eval. cbn [plit lit NumLit]. unfold litp. cbn [fst snd]. ring. Qed.
Lemma c5dN : chk0 (Cl5_d_P NumLit) (Cl5_d_Q NumLit) WN5 DN5 25 4 6 (10 ^ 17) = true.
Proof. vm_compute. reflexivity. Qed.
Lemma r5dN ep y : 0 <= y <= 987 / 400 -> exists p q, Cl5_d_p (NumR ep) (Some y) = Some p /\ Cl5_d_q (NumR ep) (Some y) = Some q /\
  0 < q /\ Rabs (p / q - eN 5 y) <= 6 / 10 ^ 17.
Proof.
  intros Hy. destruct (chk0_ok _ _ _ _ _ _ _ _ c5dN y Hy) as [A B].
  eexists. eexists. split; [apply ev_p5dN|]. split; [apply ev_q5dN|]. split; [exact A|]. p10 17%nat in B. exact B.
Qed.
Lemma ev_p6dN ep z : Cl6_d_p (NumR ep) (Some z) = Some (plit (Cl6_d_P NumLit) z).
Proof. unfold Cl6_d_p, Cl6_d_P. poly_eval. cbn [plit lit NumLit]. unfold litp. cbn [fst snd]. ring. Qed.
Lemma ev_q6dN ep z : Cl6_d_q (NumR ep) (Some z) = Some (plit (Cl6_d_Q NumLit) z).
Proof. unfold Cl6_d_q, Cl6_d_Q. poly_eval. cbn [plit lit NumLit]. unfold litp. cbn [fst snd]. ring. Qed.
Lemma c6dN : chk0 (Cl6_d_P NumLit) (Cl6_d_Q NumLit) WN6 DN6 26 16 32 (10 ^ 17) = true.
Proof. vm_compute. reflexivity. Qed.
Lemma r6dN ep y : 0 <= y <= 987 / 400 -> exists p q, Cl6_d_p (NumR ep) (Some y) = Some p /\ Cl6_d_q (NumR ep) (Some y) = Some q /\
  0 < q /\ Rabs (p / q - eN 6 y) <= 32 / 10 ^ 17.
Proof.
  intros Hy. destruct (chk0_ok _ _ _ _ _ _ _ _ c6dN y Hy) as [A B].
  eexists. eexists. split; [apply ev_p6dN|]. split; [apply ev_q6dN|]. split; [exact A|]. p10 17%nat in B. exact B.
Qed.
Lemma ev_p2dF ep z : Cl2_d_p2 (NumR ep) (Some z) = Some (plit (Cl2_d_P2 NumLit) z).
Proof. unfold Cl2_d_p2, Cl2_d_P2. poly_eval. cbn [plit lit NumLit]. unfold litp. cbn [fst snd]. ring. Qed.
Lemma ev_q2dF ep z : Cl2_d_q2 (NumR ep) (Some z) = Some (plit (Cl2_d_Q2 NumLit) z).
Proof. unfold Cl2_d_q2, Cl2_d_Q2. poly_eval. cbn [plit lit NumLit]. unfold litp. cbn [fst snd]. ring. Qed.
Lemma c2dF : chkS ud ed (Cl2_d_P2 NumLit) (Cl2_d_Q2 NumLit) WF2 DF2 24 4 12 (10 ^ 18) = true.
Proof. vm_compute. reflexivity. Qed.
Lemma r2dF ep y : 0 <= y <= 987 / 400 -> exists p q, Cl2_d_p2 (NumR ep) (Some (y + IZR ud / IZR ed)) = Some p /\ Cl2_d_q2 (NumR ep) (Some (y + IZR ud / IZR ed)) = Some q /\
  0 < q /\ Rabs (p / q - eF 2 y) <= 12 / 10 ^ 18.
Proof.
  intros Hy. destruct (chkS_ok _ _ _ _ _ _ _ _ _ _ c2dF y Hy) as [A B].
  eexists. eexists. split; [apply ev_p2dF|]. split; [apply ev_q2dF|]. split; [exact A|]. p10 18%nat in B. exact B.
Qed.
Lemma ev_p3dF ep z : Cl3_d_p2 (NumR ep) (Some z) = Some (plit (Cl3_d_P2 NumLit) z).
Proof. unfold Cl3_d_p2, Cl3_d_P2. poly_eval. cbn [plit lit NumLit]. unfold litp. cbn [fst snd]. ring. Qed.
Lemma ev_q3dF ep z : Cl3_d_q2 (NumR ep) (Some z) = Some (plit (Cl3_d_Q2 NumLit) z).
Proof. unfold Cl3_d_q2, Cl3_d_Q2. poly_eval. cbn [plit lit NumLit]. unfold litp. cbn [fst snd]. ring. Qed.
Lemma c3dF : chkS ud ed (Cl3_d_P2 NumLit) (Cl3_d_Q2 NumLit) WF3 DF3 25 4 10 (10 ^ 18) = true.
Proof. vm_compute. reflexivity. Qed.
Lemma r3dF ep y : 0 <= y <= 987 / 400 -> exists p q, Cl3_d_p2 (NumR ep) (Some (y + IZR ud / IZR ed)) = Some p /\ Cl3_d_q2 (NumR ep) (Some (y + IZR ud / IZR ed)) = Some q /\
  0 < q /\ Rabs (p / q - eF 3 y) <= 10 / 10 ^ 18.
Proof.
  intros Hy. destruct (chkS_ok _ _ _ _ _ _ _ _ _ _ c3dF y Hy) as [A B].
  eexists. eexists. split; [apply ev_p3dF|]. split; [apply ev_q3dF|]. split; [exact A|]. p10 18%nat in B. exact B.
Qed.
Lemma ev_p4dF ep z : Cl4_d_p2 (NumR ep) (Some z) = Some (plit (Cl4_d_P2 NumLit) z).
Proof. unfold Cl4_d_p2, Cl4_d_P2. poly_eval. cbn [plit lit NumLit]. unfold litp. cbn [fst snd]. ring. Qed.
Lemma ev_q4dF ep z : Cl4_d_q2 (NumR ep) (Some z) = Some (plit (Cl4_d_Q2 NumLit) z).
Proof. unfold Cl4_d_q2, Cl4_d_Q2. poly_eval. cbn [plit lit NumLit]. unfold litp. cbn [fst snd]. ring. Qed.
Lemma c4dF : chkS ud ed (Cl4_d_P2 NumLit) (Cl4_d_Q2 NumLit) WF4 DF4 25 4 4 (10 ^ 17) = true.
Proof. vm_compute. reflexivity. Qed.
Lemma r4dF ep y : 0 <= y <= 987 / 400 -> exists p q, Cl4_d_p2 (NumR ep) (Some (y + IZR ud / IZR ed)) = Some p /\ Cl4_d_q2 (NumR ep) (Some (y + IZR ud / IZR ed)) = Some q /\
  0 < q /\ Rabs (p / q - eF 4 y) <= 4 / 10 ^ 17.
Proof.
  intros Hy. destruct (chkS_ok _ _ _ _ _ _ _ _ _ _ c4dF y Hy) as [A B].
  eexists. eexists. split; [apply ev_p4dF|]. split; [apply ev_q4dF|]. split; [exact A|]. p10 17%nat in B. exact B.
Qed.
Lemma ev_p5dF ep z : Cl5_d_p2 (NumR ep) (Some z) = Some (plit (Cl5_d_P2 NumLit) z).
Proof. unfold Cl5_d_p2, Cl5_d_P2. poly_eval. cbn [plit lit NumLit]. unfold litp. cbn [fst snd]. ring. Qed.
Lemma ev_q5dF ep z : Cl5_d_q2 (NumR ep) (Some z) = Some (plit (Cl5_d_Q2 NumLit) z).
Proof. unfold Cl5_d_q2, Cl5_d_Q2. poly_eval. cbn [plit lit NumLit]. unfold litp. cbn [fst snd]. ring. Qed.
Lemma c5dF : chkS ud ed (Cl5_d_P2 NumLit) (Cl5_d_Q2 NumLit) WF5 DF5 26 4 12 (10 ^ 18) = true.
Proof. vm_compute. reflexivity. Qed.
Lemma r5dF ep y : 0 <= y <= 987 / 400 -> exists p q, Cl5_d_p2 (NumR ep) (Some (y + IZR ud / IZR ed)) = Some p /\ Cl5_d_q2 (NumR ep) (Some (y + IZR ud / IZR ed)) = Some q /\
  0 < q /\ Rabs (p / q - eF 5 y) <= 12 / 10 ^ 18.
Proof.
  intros Hy. destruct (chkS_ok _ _ _ _ _ _ _ _ _ _ c5dF y Hy) as [A B].
  eexists. eexists. split; [apply ev_p5dF|]. split; [apply ev_q5dF|]. split; [exact A|]. p10 18%nat in B. exact B.
Qed.
Lemma ev_p6dF ep z : Cl6_d_p2 (NumR ep) (Some z) = Some (plit (Cl6_d_P2 NumLit) z).
Proof. unfold Cl6_d_p2, Cl6_d_P2. poly_eval. cbn [plit lit NumLit]. unfold litp. cbn [fst snd]. ring. Qed.
Lemma ev_q6dF ep z : Cl6_d_q2 (NumR ep) (Some z) = Some (plit (Cl6_d_Q2 NumLit) z).
Proof. unfold Cl6_d_q2, Cl6_d_Q2. poly_eval. cbn [plit lit NumLit]. unfold litp. cbn [fst snd]. ring. Qed.
Lemma c6dF : chkS ud ed (Cl6_d_P2 NumLit) (Cl6_d_Q2 NumLit) WF6 DF6 26 4 4 (10 ^ 17) = true.
Proof. vm_compute. reflexivity. Qed.
Lemma r6dF ep y : 0 <= y <= 987 / 400 -> exists p q, Cl6_d_p2 (NumR ep) (Some (y + IZR ud / IZR ed)) = Some p /\ Cl6_d_q2 (NumR ep) (Some (y + IZR ud / IZR ed)) = Some q /\
  0 < q /\ Rabs (p / q - eF 6 y) <= 4 / 10 ^ 17.
Proof.
  intros Hy. destruct (chkS_ok _ _ _ _ _ _ _ _ _ _ c6dF y Hy) as [A B].
  eexists. eexists. split; [apply ev_p6dF|]. split; [apply ev_q6dF|]. split; [exact A|]. p10 17%nat in B. exact B.
Qed.
Lemma ev_p2lN ep z : Cl2_l_p (NumR ep) (Some z) = Some (plit (Cl2_l_P NumLit) z).
Proof. unfold Cl2_l_p, Cl2_l_P. poly_eval. cbn [plit lit NumLit]. unfold litp. cbn [fst snd]. ring. Qed.
Lemma ev_q2lN ep z : Cl2_l_q (NumR ep) (Some z) = Some (plit (Cl2_l_Q NumLit) z).
Proof. unfold Cl2_l_q, Cl2_l_Q. poly_eval. cbn [plit lit NumLit]. unfold litp. cbn [fst snd]. ring. Qed.
Lemma c2lN : chkS ul el (Cl2_l_P NumLit) (Cl2_l_Q NumLit) WN2 DN2 59 4 6 (10 ^ 40) = true.
Proof. vm_compute. reflexivity. Qed.
Lemma r2lN ep y : 0 <= y <= 987 / 400 -> exists p q, Cl2_l_p (NumR ep) (Some (y + IZR ul / IZR el)) = Some p /\ Cl2_l_q (NumR ep) (Some (y + IZR ul / IZR el)) = Some q /\
  0 < q /\ Rabs (p / q - eN 2 y) <= 6 / 10 ^ 40.
Proof.
  intros Hy. destruct (chkS_ok _ _ _ _ _ _ _ _ _ _ c2lN y Hy) as [A B].
  eexists. eexists. split; [apply ev_p2lN|]. split; [apply ev_q2lN|]. split; [exact A|]. p10 40%nat in B. exact B.
Qed.
Lemma ev_p3lN ep z : Cl3_l_p (NumR ep) (Some z) = Some (plit (Cl3_l_P NumLit) z).
Proof. unfold Cl3_l_p, Cl3_l_P. poly_eval. cbn [plit lit NumLit]. unfold litp. cbn [fst snd]. ring. Qed.
Lemma ev_q3lN ep z : Cl3_l_q (NumR ep) (Some z) = Some (plit (Cl3_l_Q NumLit) z).
Proof. unfold Cl3_l_q, Cl3_l_Q. poly_eval. cbn [plit lit NumLit]. unfold litp. cbn [fst snd]. ring. Qed.
Lemma c3lN : chkS ul el (Cl3_l_P NumLit) (Cl3_l_Q NumLit) WN3 DN3 57 4 4 (10 ^ 38) = true.
Proof. vm_compute. reflexivity. Qed.
Lemma r3lN ep y : 0 <= y <= 987 / 400 -> exists p q, Cl3_l_p (NumR ep) (Some (y + IZR ul / IZR el)) = Some p /\ Cl3_l_q (NumR ep) (Some (y + IZR ul / IZR el)) = Some q /\
  0 < q /\ Rabs (p / q - eN 3 y) <= 4 / 10 ^ 38.
Proof.
  intros Hy. destruct (chkS_ok _ _ _ _ _ _ _ _ _ _ c3lN y Hy) as [A B].
  eexists. eexists. split; [apply ev_p3lN|]. split; [apply ev_q3lN|]. split; [exact A|]. p10 38%nat in B. exact B.
Qed.
Lemma ev_p4lN ep z : Cl4_l_p (NumR ep) (Some z) = Some (plit (Cl4_l_P NumLit) z).
Proof. unfold Cl4_l_p, Cl4_l_P. poly_eval. cbn [plit lit NumLit]. unfold litp. cbn [fst snd]. ring. Qed.
Lemma ev_q4lN ep z : Cl4_l_q (NumR ep) (Some z) = Some (plit (Cl4_l_Q NumLit) z).
Proof. unfold Cl4_l_q, Cl4_l_Q. poly_eval. cbn [plit lit NumLit]. unfold litp. cbn [fst snd]. ring. Qed.
Lemma c4lN : chkS ul el (Cl4_l_P NumLit) (Cl4_l_Q NumLit) WN4 DN4 58 4 6 (10 ^ 39) = true.
Proof. vm_compute. reflexivity. Qed.
Lemma r4lN ep y : 0 <= y <= 987 / 400 -> exists p q, Cl4_l_p (NumR ep) (Some (y + IZR ul / IZR el)) = Some p /\ Cl4_l_q (NumR ep) (Some (y + IZR ul / IZR el)) = Some q /\
  0 < q /\ Rabs (p / q - eN 4 y) <= 6 / 10 ^ 39.
Proof.
  intros Hy. destruct (chkS_ok _ _ _ _ _ _ _ _ _ _ c4lN y Hy) as [A B].
  eexists. eexists. split; [apply ev_p4lN|]. split; [apply ev_q4lN|]. split; [exact A|]. p10 39%nat in B. exact B.
Qed.
Lemma ev_p5lN ep z : Cl5_l_p (NumR ep) (Some z) = Some (plit (Cl5_l_P NumLit) z).
Proof. unfold Cl5_l_p, Cl5_l_P. poly_eval. cbn [plit lit NumLit]. unfold litp. cbn [fst snd]. ring. Qed.
Lemma ev_q5lN ep z : Cl5_l_q (NumR ep) (Some z) = Some (plit (Cl5_l_Q NumLit) z).
Proof. unfold Cl5_l_q, Cl5_l_Q. poly_eval. cbn [plit lit NumLit]. unfold litp. cbn [fst snd]. ring. Qed.
Lemma c5lN : chk0 (Cl5_l_P NumLit) (Cl5_l_Q NumLit) WN5 DN5 59 4 2 (10 ^ 36) = true.
Proof. vm_compute. reflexivity. Qed.
Lemma r5lN ep y : 0 <= y <= 987 / 400 -> exists p q, Cl5_l_p (NumR ep) (Some y) = Some p /\ Cl5_l_q (NumR ep) (Some y) = Some q /\
  0 < q /\ Rabs (p / q - eN 5 y) <= 2 / 10 ^ 36.
Proof.
  intros Hy. destruct (chk0_ok _ _ _ _ _ _ _ _ c5lN y Hy) as [A B].
  eexists. eexists. split; [apply ev_p5lN|]. split; [apply ev_q5lN|]. split; [exact A|]. p10 36%nat in B. exact B.
Qed.
Lemma ev_p6lN ep z : Cl6_l_p (NumR ep) (Some z) = Some (plit (Cl6_l_P NumLit) z).
Proof. unfold Cl6_l_p, Cl6_l_P. poly_eval. cbn [plit lit NumLit]. unfold litp. cbn [fst snd]. ring. Qed.
Lemma ev_q6lN ep z : Cl6_l_q (NumR ep) (Some z) = Some (plit (Cl6_l_Q NumLit) z).
Proof. unfold Cl6_l_q, Cl6_l_Q. poly_eval. cbn [plit lit NumLit]. unfold litp. cbn [fst snd]. ring. Qed.
Lemma c6lN : chk0 (Cl6_l_P NumLit) (Cl6_l_Q NumLit) WN6 DN6 59 4 2 (10 ^ 36) = true.
Proof. vm_compute. reflexivity. Qed.
Lemma r6lN ep y : 0 <= y <= 987 / 400 -> exists p q, Cl6_l_p (NumR ep) (Some y) = Some p /\ Cl6_l_q (NumR ep) (Some y) = Some q /\
  0 < q /\ Rabs (p / q - eN 6 y) <= 2 / 10 ^ 36.
Proof.
  intros Hy. destruct (chk0_ok _ _ _ _ _ _ _ _ c6lN y Hy) as [A B].
  eexists. eexists. split; [apply ev_p6lN|]. split; [apply ev_q6lN|]. split; [exact A|]. p10 36%nat in B. exact B.
Qed.
