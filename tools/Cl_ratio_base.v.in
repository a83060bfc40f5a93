(** * The rational approximations inside Cl2 .. Cl6, in exact arithmetic

    For both branches of every Clausen routine: the model's numerator and
    denominator at y (or y - PI^2/8) are defined, the denominator is positive,
    and the quotient is within the stated distance of the reference function
    [eN n] / [eF n] of Clausen_ref.v, for all 0 <= y <= 2.4675. *)
From Coq Require Import Reals Lra Lia Psatz ZArith List Bool.
From Bignums Require Import BigZ.
From Verif Require Import Num NumR Eval_R Cheb Cheb_big Poly_check Model_Cl16 Cl_shape Clausen_ref Proof_Li2.
Import ListNotations.
Local Open Scope R_scope.

Definition sh (K u e : Z) (P : list (Z * Z)) : list Z * Z := acomp (zs_of K P) u e e.

Lemma scale_pos K P Q y : scale_ok K P = true -> scale_ok K Q = true -> 0 < pz (zs_of K Q) y ->
  0 < plit Q y /\ plit P y / plit Q y = pz (zs_of K P) y / pz (zs_of K Q) y.
Proof.
  intros HP HQ H. assert (K0 : (0 <= K)%Z) by (unfold scale_ok in HP; rewrite andb_true_iff, Z.leb_le in HP; tauto).
  rewrite (plit_pz K P), (plit_pz K Q) by assumption.
  assert (0 < IZR (10 ^ K)) by (apply (IZR_lt 0), Z.pow_pos_nonneg; lia). split; [apply Rdiv_lt_0_compat; lra|]. field. lra.
Qed.

(** the same on machine-word bignums *)
Definition ratio_listB (ln ld hn hd : Z) (l : list iv) (bp bq bw : list bigZ) (DW en ed : Z) : bool :=
  let diff := bsub (bscal (BigZ.of_Z DW) bp) (bmul bq bw) in
  ((0 <? DW) && (0 <? ed))%Z && negb (match l with [] => true | _ => false end) && covers ln ld hn hd l && forallb (ratio_iv diff bq DW en ed) l.
Lemma ratio_listB_ok ln ld hn hd l bp bq bw DW en ed : ratio_listB ln ld hn hd l bp bq bw DW en ed = true ->
  forall x, IZR ln / IZR ld <= x <= IZR hn / IZR hd ->
  0 < pz (toZ bq) x /\ Rabs (pz (toZ bp) x / pz (toZ bq) x - pz (toZ bw) x / IZR DW) <= IZR en / IZR ed.
Proof.
  unfold ratio_listB. rewrite !andb_true_iff, !Z.ltb_lt, forallb_forall. intros [[[[HD He] N] C] F] x Hx.
  destruct (covers_ok l ln ld hn hd C ltac:(intros ->; discriminate) x Hx) as (i & Hi & Ii). specialize (F _ Hi).
  destruct (ratio_iv_ok _ _ _ _ _ _ HD He F x Ii) as [Q0 U]. rewrite bsub_ok, bscal_ok, bmul_ok, BigZ.spec_of_Z in U.
  rewrite pz_sub, pz_scal, pz_mul in U. split; [exact Q0|].
  assert (0 < IZR DW) by (apply (IZR_lt 0); lia).
  set (p := pz (toZ bp) x) in *. set (q := pz (toZ bq) x) in *. set (w := pz (toZ bw) x) in *.
  replace (p / q - w / IZR DW) with ((IZR DW * p - q * w) * / (q * IZR DW)) by (field; lra).
  rewrite Rabs_mult, (Rabs_pos_eq (/ _)) by (left; apply Rinv_0_lt_compat; nra).
  apply (Rmult_le_reg_r (q * IZR DW)); [nra|]. rewrite Rmult_assoc, Rinv_l, Rmult_1_r by nra.
  replace (q * IZR DW) with (IZR DW * q) by ring. exact U.
Qed.
Fixpoint bacomp (l : list bigZ) (u e : bigZ) : list bigZ * bigZ :=
  match l with
  | [] => ([], BigZ.one)
  | a :: l' => let '(p, s) := bacomp l' u e in let s' := BigZ.mul e s in (badd [BigZ.mul a s'] (bmul [u; e] p), s')
  end.
Lemma padd_nil_r a : padd a [] = a. Proof. destruct a; reflexivity. Qed.
Lemma bacomp_ok l u e : acomp (toZ l) (BigZ.to_Z u) (BigZ.to_Z e) (BigZ.to_Z e) = (toZ (fst (bacomp l u e)), BigZ.to_Z (snd (bacomp l u e))).
Proof.
  induction l as [|a l IH]; cbn [toZ map acomp bacomp fst snd]; [rewrite BigZ.spec_1; reflexivity|].
  change (map BigZ.to_Z l) with (toZ l). rewrite IH. destruct (bacomp l u e) as [p s]. cbn [fst snd].
  rewrite badd_ok, bmul_ok, BigZ.spec_mul. f_equal. cbn [toZ map]. rewrite !BigZ.spec_mul, Z.mul_assoc. reflexivity.
Qed.
Definition shb (K u e : Z) (P : list (Z * Z)) : list bigZ * bigZ := bacomp (ofZl (zs_of K P)) (BigZ.of_Z u) (BigZ.of_Z e).
Lemma shb_ok K u e P : sh K u e P = (toZ (fst (shb K u e P)), BigZ.to_Z (snd (shb K u e P))).
Proof. unfold sh, shb. pose proof (bacomp_ok (ofZl (zs_of K P)) (BigZ.of_Z u) (BigZ.of_Z e)) as H. rewrite toZ_ofZl, !BigZ.spec_of_Z in H. exact H. Qed.
(** the common factor is removed when both shifts have the same scale, else cross-multiplied *)
Definition shPQb (K u e : Z) (P Q : list (Z * Z)) : list bigZ * list bigZ :=
  let '(p, s) := shb K u e P in let '(q, t) := shb K u e Q in
  if BigZ.eqb s t then (p, q) else (bscal t p, bscal s q).
Lemma shift_posb K u e P Q y : (0 < e)%Z -> scale_ok K P = true -> scale_ok K Q = true -> 0 < pz (toZ (snd (shPQb K u e P Q))) y ->
  0 < plit Q (y + IZR u / IZR e) /\
  plit P (y + IZR u / IZR e) / plit Q (y + IZR u / IZR e) = pz (toZ (fst (shPQb K u e P Q))) y / pz (toZ (snd (shPQb K u e P Q))) y.
Proof.
  intros He HP HQ H. unfold shPQb in *. assert (E0 : 0 < IZR e) by (apply (IZR_lt 0); lia).
  pose proof (shb_ok K u e P) as BP. pose proof (shb_ok K u e Q) as BQ. unfold sh in BP, BQ.
  destruct (acomp_ok (zs_of K P) u e e y He) as [SP EP]. destruct (acomp_ok (zs_of K Q) u e e y He) as [SQ EQ].
  rewrite BP in SP, EP. rewrite BQ in SQ, EQ. destruct (shb K u e P) as [p s]. destruct (shb K u e Q) as [q t]. cbn [fst snd] in *.
  replace ((IZR u + IZR e * y) / IZR e) with (y + IZR u / IZR e) in * by (field; lra). set (z := y + IZR u / IZR e) in *.
  assert (S0 : 0 < IZR (BigZ.to_Z s)) by (apply (IZR_lt 0); exact SP). assert (T0 : 0 < IZR (BigZ.to_Z t)) by (apply (IZR_lt 0); exact SQ).
  destruct (BigZ.eqb s t) eqn:B; cbn [fst snd] in *.
  - rewrite BigZ.spec_eqb, Z.eqb_eq in B. rewrite EP, EQ, B. rewrite EQ in H.
    assert (Q0 : 0 < pz (zs_of K Q) z) by (apply (Rmult_lt_reg_l (IZR (BigZ.to_Z t))); lra).
    destruct (scale_pos K P Q z HP HQ Q0) as [N E]. split; [exact N|]. rewrite E. field. split; lra.
  - rewrite !bscal_ok, !pz_scal, EP, EQ. rewrite bscal_ok, pz_scal, EQ in H.
    assert (Q0 : 0 < pz (zs_of K Q) z) by (apply (Rmult_lt_reg_l (IZR (BigZ.to_Z s) * IZR (BigZ.to_Z t))); [nra|lra]).
    destruct (scale_pos K P Q z HP HQ Q0) as [N E]. split; [exact N|]. rewrite E. field. repeat split; lra.
Qed.

Definition ud : Z := Eval vm_compute in (- (314159265358979324 * 314159265358979324))%Z.
Definition ed : Z := Eval vm_compute in (8 * 10 ^ 34)%Z.
Definition ul : Z := Eval vm_compute in (- (314159265358979323846264338327950288 * 314159265358979323846264338327950288))%Z.
Definition el : Z := Eval vm_compute in (8 * 10 ^ 70)%Z.
Definition ivs (m : Z) : list iv := split_iv m 0 987 400 (Z.to_nat m).
Definition chk0 (P Q : list (Z * Z)) (W : list Z) (D K m en ed : Z) : bool :=
  scale_ok K P && scale_ok K Q && ratio_list 0 1 987 400 (ivs m) (zs_of K P) (zs_of K Q) W D en ed.
Definition chkS (u e : Z) (P Q : list (Z * Z)) (W : list Z) (D K m en ed : Z) : bool :=
  (0 <? e)%Z && scale_ok K P && scale_ok K Q && (let '(p, q) := shPQb K u e P Q in ratio_listB 0 1 987 400 (ivs m) p q (ofZl W) D en ed).
Lemma chk0_ok P Q W D K m en ed : chk0 P Q W D K m en ed = true -> forall y, 0 <= y <= 987 / 400 ->
  0 < plit Q y /\ Rabs (plit P y / plit Q y - pz W y / IZR D) <= IZR en / IZR ed.
Proof.
  unfold chk0. rewrite !andb_true_iff. intros [[H1 H2] H] y Hy.
  destruct (ratio_list_ok _ _ _ _ _ _ _ _ _ _ _ H y ltac:(lra)) as [Q0 U]. destruct (scale_pos K P Q y H1 H2 Q0) as [N E]. split; [exact N|]. rewrite E. exact U.
Qed.
Lemma chkS_ok u e P Q W D K m en ed : chkS u e P Q W D K m en ed = true -> forall y, 0 <= y <= 987 / 400 ->
  0 < plit Q (y + IZR u / IZR e) /\ Rabs (plit P (y + IZR u / IZR e) / plit Q (y + IZR u / IZR e) - pz W y / IZR D) <= IZR en / IZR ed.
Proof.
  unfold chkS. rewrite !andb_true_iff, Z.ltb_lt. intros [[[H0 H1] H2] H] y Hy.
  pose proof (shift_posb K u e P Q y H0 H1 H2) as SB. destruct (shPQb K u e P Q) as [p q]. cbn [fst snd] in SB.
  destruct (ratio_listB_ok _ _ _ _ _ _ _ _ _ _ _ H y ltac:(lra)) as [Q0 U]. rewrite toZ_ofZl in U. destruct (SB Q0) as [N E]. split; [exact N|]. rewrite E. exact U.
Qed.
