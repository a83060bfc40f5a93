(** * C26: the complex polylogarithms that do not delegate, on the real axis (exact arithmetic)

    [ReLi n x] is the real polylogarithm of Polylog.v, [ImLi n x] (Properties_J.v) is
    0 for x <= 1 and -pi ln(x)^(n-1)/(n-1)! for x > 1.  [C26_limit_below] shows that
    (ReLi n x, ImLi n x) is the limit of the principal branch [CLi n] from below the cut. *)
From Coq Require Import ZArith Reals List Bool Lra Lia Psatz.
From Coquelicot Require Import Coquelicot.
From Interval Require Import Tactic.
From Verif Require Import Num NumR Spec Eval_R Cplx Ccalc Polylog Polylog_eqs Fourier CLi CLi_disc CLi_inv Cpoly Rest Model_LiC CLi_code CLi_dev CLi_rest CLi_acc CLi_axis CLi_axis2 CLi_axis_inst Properties_J.
Import ListNotations.
Local Open Scope R_scope.

Theorem Li5_inversion p x : p = 1 \/ p = -1 -> 0 < x * p ->
  ReLi 5 x - ReLi 5 (/ x) = 2 * ReLi 4 p * ln (Rabs x) + ReLi 2 p * (ln (Rabs x)) ^ 3 / 3 - (ln (Rabs x)) ^ 5 / 120.
Proof.
  intros Hp Hx. replace (ReLi 5 x - ReLi 5 (/ x)) with (ReLi 5 x + -1 * ReLi 5 (/ x)) by ring.
  apply (inversion_step 4 (-1) (fun y => 2 * ReLi 4 p + ReLi 2 p * y ^ 2 - y ^ 4 / 24) (fun y => 2 * ReLi 4 p * y + ReLi 2 p * y ^ 3 / 3 - y ^ 5 / 120) p); auto.
  - intros y Hy N. rewrite <- (Li4_inversion p y Hp Hy). ring.
  - intros y. generalize (ReLi 2 p) (ReLi 4 p). intros c d. auto_derive; [trivial|]. field.
  - replace (/ p) with p by (destruct Hp as [->| ->]; field). cbn [pow]. field.
Qed.
Theorem Li6_inversion p x : p = 1 \/ p = -1 -> 0 < x * p ->
  ReLi 6 x + ReLi 6 (/ x) = 2 * ReLi 6 p + ReLi 4 p * (ln (Rabs x)) ^ 2 + ReLi 2 p * (ln (Rabs x)) ^ 4 / 12 - (ln (Rabs x)) ^ 6 / 720.
Proof.
  intros Hp Hx. rewrite <- (Rmult_1_l (ReLi 6 (/ x))).
  apply (inversion_step 5 1 (fun y => 2 * ReLi 4 p * y + ReLi 2 p * y ^ 3 / 3 - y ^ 5 / 120) (fun y => 2 * ReLi 6 p + ReLi 4 p * y ^ 2 + ReLi 2 p * y ^ 4 / 12 - y ^ 6 / 720) p); auto.
  - intros y Hy N. rewrite <- (Li5_inversion p y Hp Hy). ring.
  - intros y. generalize (ReLi 2 p) (ReLi 4 p) (ReLi 6 p). intros c d f. auto_derive; [trivial|]. field.
  - replace (/ p) with p by (destruct Hp as [->| ->]; field). cbn [pow]. field.
Qed.
Lemma Cm_pair a b l p : Cmult (l, p) (a, b) = (l * a - p * b, l * b + p * a). Proof. reflexivity. Qed.
Lemma Cp_pair a b l p : Cplus (l, p) (a, b) = (l + a, p + b). Proof. reflexivity. Qed.
Lemma Cmm_pair a b l p : Cminus (l, p) (a, b) = (l - a, p - b). Proof. reflexivity. Qed.
Lemma low_value n x : (2 <= n <= 6)%nat -> 1 < x -> low n x = (ReLi n x, - (PI * ln x ^ (n - 1) / INR (fact (n - 1)))).
Proof.
  intros Hn Hx. unfold low. rewrite restC_list by exact Hn. assert (P1 : 0 < x * 1) by lra.
  pose proof (Li2_inversion 1 x (or_introl eq_refl) P1) as I2. pose proof (Li3_inversion 1 x (or_introl eq_refl) P1) as I3. pose proof (Li4_inversion 1 x (or_introl eq_refl) P1) as I4.
  pose proof (Li5_inversion 1 x (or_introl eq_refl) P1) as I5. pose proof (Li6_inversion 1 x (or_introl eq_refl) P1) as I6. rewrite (Rabs_pos_eq x) in * by lra.
  rewrite zeta6, zeta4, basel in *. set (l := ln x) in *. assert (C : n = 2%nat \/ n = 3%nat \/ n = 4%nat \/ n = 5%nat \/ n = 6%nat) by lia.
  destruct C as [->|[->|[->|[->| ->]]]]; [set (a := ReLi 2 x) in *; set (b := ReLi 2 (/ x)) in *|set (a := ReLi 3 x) in *; set (b := ReLi 3 (/ x)) in *|set (a := ReLi 4 x) in *; set (b := ReLi 4 (/ x)) in *|set (a := ReLi 5 x) in *; set (b := ReLi 5 (/ x)) in *|set (a := ReLi 6 x) in *; set (b := ReLi 6 (/ x)) in *];
  cbn [rlist cpev Nat.sub fact Nat.mul Nat.add]; rewrite INR_IZR_INZ; cbn [Z.of_nat Pos.of_succ_nat Pos.succ]; unfold RtoC; repeat rewrite ?Cm_pair, ?Cp_pair; rewrite Cmm_pair; generalize dependent PI; intros p; intros; f_equal; lra.
Qed.

(** ** the specification value on the axis *)
Theorem C26_limit_below n x : (2 <= n <= 6)%nat -> 1 < x -> forall d, 0 < d ->
  exists y0, 0 < y0 /\ forall y, 0 < y < y0 -> Cmod (Cminus (CLi n (x, - y)) (ReLi n x, ImLi n x)) < d.
Proof.
  intros Hn Hx d Hd. destruct (low_limit n x ltac:(lia) Hx d Hd) as (y0 & Y & K). exists y0. split; [exact Y|]. intros y Hy. rewrite low_value in K by assumption.
  unfold ImLi. destruct (Rle_dec x 1); [lra|]. apply K, Hy.
Qed.
Theorem C26_value_below_1 n x : (1 <= n)%nat -> x < 1 -> CLi n (x, 0) = (ReLi n x, ImLi n x).
Proof. intros Hn Hx. change (x, 0) with (RtoC x). rewrite CLi_real by assumption. unfold ImLi. destruct (Rle_dec x 1); [reflexivity|lra]. Qed.
(** [axis_accurate n eps e f]: at every real x the code returns Re Li_n(x), and the imaginary part of Li_n just below
    the axis, with tolerance [eps]: relative to |x| for |x| <= 1, relative to (1+|Log(-x)|)^n outside *)
Definition axis_accurate (n : nat) (eps e : R) (f : cpx (NumR e) -> cpx (NumR e)) : Prop := forall x : R,
  exists v : C, f (ofC e (x, 0)) = ofC e v /\
    (Rabs x <= 1 -> Cmod (Cminus v (ReLi n x, ImLi n x)) <= eps * Rabs x) /\
    (1 < Rabs x -> Cmod (Cminus v (ReLi n x, ImLi n x)) <= eps * (1 + Cmod (Clog (Copp (x, 0)))) ^ n).
Lemma axis_ok n eps e f : (2 <= n <= 6)%nat -> (forall x, exists v, f (ofC e (RtoC x)) = ofC e v /\ closeR n eps v x) -> axis_accurate n eps e f.
Proof.
  intros Hn H x. destruct (H x) as (v & E & C1 & C2 & C3). exists v. split; [exact E|].
  assert (A : x <= 1 -> (ReLi n x, ImLi n x) = RtoC (ReLi n x)) by (intros Hx; unfold ImLi; destruct (Rle_dec x 1); [reflexivity|lra]).
  assert (CO : Copp (x, 0) = RtoC (- x)) by (unfold Copp, RtoC; cbn [fst snd]; f_equal; ring). split; intros HX.
  - assert (HX' : -1 <= x <= 1) by (unfold Rabs in HX; destruct (Rcase_abs x); lra). rewrite A by lra. apply C1, HX'.
  - rewrite CO. destruct (Rlt_dec x 0) as [N|N].
    + rewrite Rabs_left in HX by exact N. rewrite A by lra. rewrite Clog_real, Cmod_R by lra. rewrite Rabs_pos_eq by (rewrite <- ln_1; apply Rlt_le, ln_increasing; lra). apply C2. lra.
    + rewrite Rabs_pos_eq in HX by lra. rewrite Clog_mreal by lra. specialize (C3 HX). rewrite low_value in C3 by assumption. unfold ImLi. destruct (Rle_dec x 1); [lra|]. exact C3.
Qed.
Theorem C26_Li5_double : axis_accurate 5 (1 / 10 ^ 15) eps_d (cLi5_d (NumR eps_d)).
Proof. apply axis_ok; [lia|]. intros x. apply accR_cLi5_d. Qed.
Theorem C26_Li6_double : axis_accurate 6 (3 / 10 ^ 15) eps_d (cLi6_d (NumR eps_d)).
Proof. apply axis_ok; [lia|]. intros x. apply accR_cLi6_d. Qed.
Theorem C26_Li3_long_double : axis_accurate 3 (9 / 10 ^ 18) eps_l (cLi3_l (NumR eps_l)).
Proof. apply axis_ok; [lia|]. intros x. apply accR_cLi3_l. Qed.
Theorem C26_Li4_long_double : axis_accurate 4 (45 / 10 ^ 19) eps_l (cLi4_l (NumR eps_l)).
Proof. apply axis_ok; [lia|]. intros x. apply accR_cLi4_l. Qed.
Theorem C26_Li5_long_double : axis_accurate 5 (18 / 10 ^ 18) eps_l (cLi5_l (NumR eps_l)).
Proof. apply axis_ok; [lia|]. intros x. apply accR_cLi5_l. Qed.
Theorem C26_Li6_long_double : axis_accurate 6 (4 / 10 ^ 18) eps_l (cLi6_l (NumR eps_l)).
Proof. apply axis_ok; [lia|]. intros x. apply accR_cLi6_l. Qed.
Theorem C26_Li3_quadruple : axis_accurate 3 (1 / 10 ^ 34) eps_q (cLi3_q (NumR eps_q)).
Proof. apply axis_ok; [lia|]. intros x. apply accR_cLi3_q. Qed.
Theorem C26_Li4_quadruple : axis_accurate 4 (1 / 10 ^ 34) eps_q (cLi4_q (NumR eps_q)).
Proof. apply axis_ok; [lia|]. intros x. apply accR_cLi4_q. Qed.
Theorem C26_Li5_quadruple : axis_accurate 5 (1 / 10 ^ 34) eps_q (cLi5_q (NumR eps_q)).
Proof. apply axis_ok; [lia|]. intros x. apply accR_cLi5_q. Qed.
Theorem C26_Li6_quadruple : axis_accurate 6 (2 / 10 ^ 34) eps_q (cLi6_q (NumR eps_q)).
Proof. apply axis_ok; [lia|]. intros x. apply accR_cLi6_q. Qed.
(** concrete case: on the cut, x = 2, the imaginary part of Li_5 is not zero *)
Example C26_case : 1 < Rabs 2 /\ ImLi 5 2 < 0.
Proof. rewrite Rabs_pos_eq by lra. split; [lra|]. unfold ImLi. destruct (Rle_dec 2 1); [lra|]. replace (INR (fact (5 - 1))) with 24 by (cbn; ring). interval. Qed.
