(** * The long double approximations near pi (continuation of Cl_ratio.v) *)
From Coq Require Import Reals Lra Lia Psatz ZArith List Bool.
From Bignums Require Import BigZ.
From Verif Require Import Num NumR Eval_R Cheb Cheb_big Poly_check Model_Cl16 Cl_shape Clausen_ref Proof_Li2 Cl_ratio.
Import ListNotations.
Local Open Scope R_scope.
Lemma ev_p2lF ep z : Cl2_l_p2 (NumR ep) (Some z) = Some (plit (Cl2_l_P2 NumLit) z).
Proof. unfold Cl2_l_p2, Cl2_l_P2. poly_eval. cbn [plit lit NumLit]. unfold litp. cbn [fst snd]. ring. Qed.
Lemma ev_q2lF ep z : Cl2_l_q2 (NumR ep) (Some z) = Some (plit (Cl2_l_Q2 NumLit) z).
Proof. unfold Cl2_l_q2, Cl2_l_Q2. poly_eval. cbn [plit lit NumLit]. unfold litp. cbn [fst snd]. ring. Qed.
Lemma c2lF : chkS ul el (Cl2_l_P2 NumLit) (Cl2_l_Q2 NumLit) WF2 DF2 58 4 4 (10 ^ 37) = true.
Proof. vm_compute. reflexivity. Qed.
Lemma r2lF ep y : 0 <= y <= 987 / 400 -> exists p q, Cl2_l_p2 (NumR ep) (Some (y + IZR ul / IZR el)) = Some p /\ Cl2_l_q2 (NumR ep) (Some (y + IZR ul / IZR el)) = Some q /\
  0 < q /\ Rabs (p / q - eF 2 y) <= 4 / 10 ^ 37.
Proof.
  intros Hy. destruct (chkS_ok _ _ _ _ _ _ _ _ _ _ c2lF y Hy) as [A B].
  eexists. eexists. split; [apply ev_p2lF|]. split; [apply ev_q2lF|]. split; [exact A|]. p10 37%nat in B. exact B.
Qed.
Lemma ev_p3lF ep z : Cl3_l_p2 (NumR ep) (Some z) = Some (plit (Cl3_l_P2 NumLit) z).
Proof. unfold Cl3_l_p2, Cl3_l_P2. poly_eval. cbn [plit lit NumLit]. unfold litp. cbn [fst snd]. ring. Qed.
Lemma ev_q3lF ep z : Cl3_l_q2 (NumR ep) (Some z) = Some (plit (Cl3_l_Q2 NumLit) z).
Proof. unfold Cl3_l_q2, Cl3_l_Q2. poly_eval. cbn [plit lit NumLit]. unfold litp. cbn [fst snd]. ring. Qed.
Lemma c3lF : chkS ul el (Cl3_l_P2 NumLit) (Cl3_l_Q2 NumLit) WF3 DF3 65 4 6 (10 ^ 26) = true.
Proof. vm_compute. reflexivity. Qed.
Lemma r3lF ep y : 0 <= y <= 987 / 400 -> exists p q, Cl3_l_p2 (NumR ep) (Some (y + IZR ul / IZR el)) = Some p /\ Cl3_l_q2 (NumR ep) (Some (y + IZR ul / IZR el)) = Some q /\
  0 < q /\ Rabs (p / q - eF 3 y) <= 6 / 10 ^ 26.
Proof.
  intros Hy. destruct (chkS_ok _ _ _ _ _ _ _ _ _ _ c3lF y Hy) as [A B].
  eexists. eexists. split; [apply ev_p3lF|]. split; [apply ev_q3lF|]. split; [exact A|]. p10 26%nat in B. exact B.
Qed.
Lemma ev_p4lF ep z : Cl4_l_p2 (NumR ep) (Some z) = Some (plit (Cl4_l_P2 NumLit) z).
Proof. unfold Cl4_l_p2, Cl4_l_P2. poly_eval. cbn [plit lit NumLit]. unfold litp. cbn [fst snd]. ring. Qed.
Lemma ev_q4lF ep z : Cl4_l_q2 (NumR ep) (Some z) = Some (plit (Cl4_l_Q2 NumLit) z).
Proof. unfold Cl4_l_q2, Cl4_l_Q2. poly_eval. cbn [plit lit NumLit]. unfold litp. cbn [fst snd]. ring. Qed.
Lemma c4lF : chkS ul el (Cl4_l_P2 NumLit) (Cl4_l_Q2 NumLit) WF4 DF4 57 4 6 (10 ^ 26) = true.
Proof. vm_compute. reflexivity. Qed.
Lemma r4lF ep y : 0 <= y <= 987 / 400 -> exists p q, Cl4_l_p2 (NumR ep) (Some (y + IZR ul / IZR el)) = Some p /\ Cl4_l_q2 (NumR ep) (Some (y + IZR ul / IZR el)) = Some q /\
  0 < q /\ Rabs (p / q - eF 4 y) <= 6 / 10 ^ 26.
Proof.
  intros Hy. destruct (chkS_ok _ _ _ _ _ _ _ _ _ _ c4lF y Hy) as [A B].
  eexists. eexists. split; [apply ev_p4lF|]. split; [apply ev_q4lF|]. split; [exact A|]. p10 26%nat in B. exact B.
Qed.
Lemma ev_p5lF ep z : Cl5_l_p2 (NumR ep) (Some z) = Some (plit (Cl5_l_P2 NumLit) z).
Proof. unfold Cl5_l_p2, Cl5_l_P2. poly_eval. cbn [plit lit NumLit]. unfold litp. cbn [fst snd]. ring. Qed.
Lemma ev_q5lF ep z : Cl5_l_q2 (NumR ep) (Some z) = Some (plit (Cl5_l_Q2 NumLit) z).
Proof. unfold Cl5_l_q2, Cl5_l_Q2. poly_eval. cbn [plit lit NumLit]. unfold litp. cbn [fst snd]. ring. Qed.
Lemma c5lF : chkS ul el (Cl5_l_P2 NumLit) (Cl5_l_Q2 NumLit) WF5 DF5 66 4 6 (10 ^ 26) = true.
Proof. vm_compute. reflexivity. Qed.
Lemma r5lF ep y : 0 <= y <= 987 / 400 -> exists p q, Cl5_l_p2 (NumR ep) (Some (y + IZR ul / IZR el)) = Some p /\ Cl5_l_q2 (NumR ep) (Some (y + IZR ul / IZR el)) = Some q /\
  0 < q /\ Rabs (p / q - eF 5 y) <= 6 / 10 ^ 26.
Proof.
  intros Hy. destruct (chkS_ok _ _ _ _ _ _ _ _ _ _ c5lF y Hy) as [A B].
  eexists. eexists. split; [apply ev_p5lF|]. split; [apply ev_q5lF|]. split; [exact A|]. p10 26%nat in B. exact B.
Qed.
Lemma ev_p6lF ep z : Cl6_l_p2 (NumR ep) (Some z) = Some (plit (Cl6_l_P2 NumLit) z).
Proof. unfold Cl6_l_p2, Cl6_l_P2. poly_eval. cbn [plit lit NumLit]. unfold litp. cbn [fst snd]. ring. Qed.
Lemma ev_q6lF ep z : Cl6_l_q2 (NumR ep) (Some z) = Some (plit (Cl6_l_Q2 NumLit) z).
Proof. unfold Cl6_l_q2, Cl6_l_Q2. poly_eval. cbn [plit lit NumLit]. unfold litp. cbn [fst snd]. ring. Qed.
Lemma c6lF : chkS ul el (Cl6_l_P2 NumLit) (Cl6_l_Q2 NumLit) WF6 DF6 65 4 6 (10 ^ 26) = true.
Proof. vm_compute. reflexivity. Qed.
Lemma r6lF ep y : 0 <= y <= 987 / 400 -> exists p q, Cl6_l_p2 (NumR ep) (Some (y + IZR ul / IZR el)) = Some p /\ Cl6_l_q2 (NumR ep) (Some (y + IZR ul / IZR el)) = Some q /\
  0 < q /\ Rabs (p / q - eF 6 y) <= 6 / 10 ^ 26.
Proof.
  intros Hy. destruct (chkS_ok _ _ _ _ _ _ _ _ _ _ c6lF y Hy) as [A B].
  eexists. eexists. split; [apply ev_p6lF|]. split; [apply ev_q6lF|]. split; [exact A|]. p10 26%nat in B. exact B.
Qed.
