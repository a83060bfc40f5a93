(** * Accuracy of the real polylogarithm of order 4, in exact arithmetic *)
From Coq Require Import ZArith Reals List Bool Lra Lia Psatz.
From Coquelicot Require Import Coquelicot.
From Interval Require Import Tactic.
From Verif Require Import Num NumR Eval_R Cheb Polylog Polylog_series Polylog_eqs Fourier Poly_check Cheb_big Consts Model_LiR Proof_Li2 Proof_Li3 Chain.
Import ListNotations.
Local Open Scope R_scope.

(** ** the expansion about x = 1, in t = -log x:
    ReLi n (exp(-t)) for n = 1..4 against its expansion with the Bernoulli terms [s]/[D] *)
Definition xl (t : R) := ln (Rabs t).
Lemma xl_derive t : t <> 0 -> is_derive xl t (/ t).
Proof. apply is_derive_lnabs. Qed.
Lemma txl_derive t : t <> 0 -> is_derive (fun t => t * xl t) t (xl t + 1).
Proof.
  intros H. evar_last; [apply (is_derive_mult (fun t => t) xl t 1 (/ t)); [apply is_derive_idR|apply xl_derive; exact H|intros; apply Rmult_comm]|].
  toR. change (1 * xl t + t * / t = xl t + 1). field. exact H.
Qed.
Lemma rpD_derive s D n t : is_derive (fun t => rp s (S n) 1 t / D) t (rp s n 1 t / D).
Proof. apply (is_derive_ext (fun t => / D * rp s (S n) 1 t)); [intros; toR; unfold Rdiv; ring|]. evar_last; [apply (is_derive_scal (rp s (S n) 1) t (/ D)); apply rp_derive; lia|]. toR. unfold Rdiv. change (/ D * rp s n 1 t = rp s n 1 t * / D). ring. Qed.
Lemma rpD_cont s D n t : continuous (fun t => rp s n 1 t / D) t.
Proof. apply (continuous_ext (fun t => / D * rp s n 1 t)); [intros; toR; unfold Rdiv; ring|]. apply (continuous_scal_r (/ D) (rp s n 1)). apply rp_continuous. lia. Qed.

Section Ref.
Variables (s : list Z) (D z2 z3 z4 : R).
Hypothesis D0 : D <> 0.
Definition ref1 (t : R) := - xl t + t / 2 - rp s 1 1 t / D.
Definition ref2 (t : R) := z2 + t * xl t - t - t * t / 4 + rp s 2 1 t / D.
Definition ref3 (t : R) := z3 - z2 * t - t * (t * xl t) / 2 + 3 / 4 * (t * t) + t ^ 3 / 12 - rp s 3 1 t / D.
Definition ref4 (t : R) := z4 - z3 * t + z2 / 2 * (t * t) + t * t * (t * xl t) / 6 - 11 / 36 * t ^ 3 - t ^ 4 / 48 + rp s 4 1 t / D.

Lemma ref2_derive t : t <> 0 -> is_derive (ref2) t (- ref1 t).
Proof.
  intros H. unfold ref2. evar_last.
  - apply (is_derive_plus (fun t => z2 + t * xl t - t - t * t / 4) (fun t => rp s 2 1 t / D)); [|apply rpD_derive].
    apply (is_derive_ext (fun t => t * xl t + (z2 - t - t * t / 4))); [intros; toR; ring|].
    apply (is_derive_plus (fun t => t * xl t) (fun t => z2 - t - t * t / 4)); [apply txl_derive; exact H|].
    auto_derive; [trivial|reflexivity].
  - toR. unfold ref1, plus; cbn. field. exact D0.
Qed.
Lemma ref3_derive t : t <> 0 -> is_derive (ref3) t (- ref2 t).
Proof.
  intros H. unfold ref3. evar_last.
  - apply (is_derive_minus (fun t => z3 - z2 * t - t * (t * xl t) / 2 + 3 / 4 * (t * t) + t ^ 3 / 12) (fun t => rp s 3 1 t / D)); [|apply rpD_derive].
    apply (is_derive_ext (fun t => (- t / 2) * (t * xl t) + (z3 - z2 * t + 3 / 4 * (t * t) + t ^ 3 / 12))); [intros; toR; field|].
    apply (is_derive_plus (fun t => (- t / 2) * (t * xl t)) (fun t => z3 - z2 * t + 3 / 4 * (t * t) + t ^ 3 / 12)).
    + apply (is_derive_mult (fun t => - t / 2) (fun t => t * xl t) t (- / 2) (xl t + 1)); [auto_derive; [trivial|field]|apply txl_derive; exact H|intros; apply Rmult_comm].
    + auto_derive; [trivial|reflexivity].
  - toR. unfold ref2, plus, minus, opp, plus, mult; cbn. unfold mult; cbn. field. exact D0.
Qed.
Lemma ref4_derive t : t <> 0 -> is_derive (ref4) t (- ref3 t).
Proof.
  intros H. unfold ref4. evar_last.
  - apply (is_derive_plus (fun t => z4 - z3 * t + z2 / 2 * (t * t) + t * t * (t * xl t) / 6 - 11 / 36 * t ^ 3 - t ^ 4 / 48) (fun t => rp s 4 1 t / D)); [|apply rpD_derive].
    apply (is_derive_ext (fun t => (t * t / 6) * (t * xl t) + (z4 - z3 * t + z2 / 2 * (t * t) - 11 / 36 * t ^ 3 - t ^ 4 / 48))); [intros; toR; field|].
    apply (is_derive_plus (fun t => (t * t / 6) * (t * xl t)) (fun t => z4 - z3 * t + z2 / 2 * (t * t) - 11 / 36 * t ^ 3 - t ^ 4 / 48)).
    + apply (is_derive_mult (fun t => t * t / 6) (fun t => t * xl t) t (t / 3) (xl t + 1)); [auto_derive; [trivial|field]|apply txl_derive; exact H|intros; apply Rmult_comm].
    + auto_derive; [trivial|reflexivity].
  - toR. unfold ref3, plus, minus, opp, plus, mult; cbn. unfold mult; cbn. field. exact D0.
Qed.
Lemma txl_cont t : continuous (fun t => t * xl t) t.
Proof. apply xlnx_continuous. Qed.
Lemma ref2_cont : continuous (ref2) 0.
Proof.
  unfold ref2. apply (continuous_plus (fun t => z2 + t * xl t - t - t * t / 4) (fun t => rp s 2 1 t / D)); [|apply rpD_cont].
  apply (continuous_ext (fun t => t * xl t + (z2 - t - t * t / 4))); [intros; toR; ring|].
  apply (continuous_plus (fun t => t * xl t) (fun t => z2 - t - t * t / 4)); [apply txl_cont|].
  apply (ex_derive_continuous (fun t => z2 - t - t * t / 4)). auto_derive. trivial.
Qed.
Lemma ref3_cont : continuous (ref3) 0.
Proof.
  unfold ref3. apply (continuous_minus (fun t => z3 - z2 * t - t * (t * xl t) / 2 + 3 / 4 * (t * t) + t ^ 3 / 12) (fun t => rp s 3 1 t / D)); [|apply rpD_cont].
  apply (continuous_ext (fun t => (- t / 2) * (t * xl t) + (z3 - z2 * t + 3 / 4 * (t * t) + t ^ 3 / 12))); [intros; toR; field|].
  apply (continuous_plus (fun t => (- t / 2) * (t * xl t)) (fun t => z3 - z2 * t + 3 / 4 * (t * t) + t ^ 3 / 12)).
  - apply (continuous_mult (fun t => - t / 2) (fun t => t * xl t)); [|apply txl_cont]. apply (ex_derive_continuous (fun t => - t / 2)). auto_derive. trivial.
  - apply (ex_derive_continuous (fun t => z3 - z2 * t + 3 / 4 * (t * t) + t ^ 3 / 12)). auto_derive. trivial.
Qed.
Lemma ref4_cont : continuous (ref4) 0.
Proof.
  unfold ref4. apply (continuous_plus (fun t => z4 - z3 * t + z2 / 2 * (t * t) + t * t * (t * xl t) / 6 - 11 / 36 * t ^ 3 - t ^ 4 / 48) (fun t => rp s 4 1 t / D)); [|apply rpD_cont].
  apply (continuous_ext (fun t => (t * t / 6) * (t * xl t) + (z4 - z3 * t + z2 / 2 * (t * t) - 11 / 36 * t ^ 3 - t ^ 4 / 48))); [intros; toR; field|].
  apply (continuous_plus (fun t => (t * t / 6) * (t * xl t)) (fun t => z4 - z3 * t + z2 / 2 * (t * t) - 11 / 36 * t ^ 3 - t ^ 4 / 48)).
  - apply (continuous_mult (fun t => t * t / 6) (fun t => t * xl t)); [|apply txl_cont]. apply (ex_derive_continuous (fun t => t * t / 6)). auto_derive. trivial.
  - apply (ex_derive_continuous (fun t => z4 - z3 * t + z2 / 2 * (t * t) - 11 / 36 * t ^ 3 - t ^ 4 / 48)). auto_derive. trivial.
Qed.
End Ref.
Section Gen.
Variables (s : list Z) (D : R).
Hypothesis D0 : D <> 0.
Notation r1 := (ref1 s D). Notation r2 := (ref2 s D (ReLi 2 1)). Notation r3 := (ref3 s D (ReLi 2 1) (ReLi 3 1)). Notation r4 := (ref4 s D (ReLi 2 1) (ReLi 3 1) (ReLi 4 1)).
Lemma exp_lt1 t : 0 < t -> exp (- t) < 1.
Proof. intros H. rewrite <- exp_0. apply exp_increasing. lra. Qed.
Lemma ReLi_exp_derive n t : (1 <= n)%nat -> 0 < t -> is_derive (fun t => ReLi (S n) (exp (- t))) t (- ReLi n (exp (- t))).
Proof.
  intros Hn Ht. pose proof (exp_pos (- t)) as P. pose proof (exp_lt1 t Ht) as L. evar_last.
  - apply (ReLi_comp_derive n (fun t => exp (- t)) t (- exp (- t))); try lra; [exact Hn|]. auto_derive; [trivial|ring].
  - toR. field. lra.
Qed.
Lemma ReLi_exp_cont n t : (2 <= n)%nat -> continuous (fun t => ReLi n (exp (- t))) t.
Proof. intros Hn. apply (ReLi_comp_continuous n (fun t => exp (- t))); [exact Hn|]. apply (ex_derive_continuous (fun t => exp (- t))). auto_derive. trivial. Qed.

(** the logarithmic part of order 1: the derivative of the error is coth *)
Variables (c : R) (k : nat) (b : R).
Hypothesis c0 : 0 <= c.
Hypothesis coth_err : forall t, 0 < t < b -> Rabs (/ 2 * ((1 + exp (- t)) / (1 - exp (- t))) - / t - rp s 0 1 t / D) <= c * t ^ k.
Definition e1 t := ReLi 1 (exp (- t)) - r1 t.
Lemma e1_derive t : 0 < t < b -> is_derive e1 t (- (/ 2 * ((1 + exp (- t)) / (1 - exp (- t))) - / t - rp s 0 1 t / D)).
Proof.
  intros Ht. pose proof (exp_pos (- t)) as P. pose proof (exp_lt1 t ltac:(lra)) as L. unfold e1, ref1. evar_last.
  - apply (is_derive_minus (fun t => ReLi 1 (exp (- t))) (fun t => - xl t + t / 2 - rp s 1 1 t / D)).
    + cbn [ReLi]. apply (is_derive_opp (fun t => ln (Rabs (1 - exp (- t))))).
      apply (is_derive_comp (fun u => ln (Rabs u)) (fun t => 1 - exp (- t))); [apply is_derive_lnabs; lra|]. auto_derive; [trivial|reflexivity].
    + apply (is_derive_minus (fun t => - xl t + t / 2) (fun t => rp s 1 1 t / D)); [|apply rpD_derive].
      apply (is_derive_plus (fun t => - xl t) (fun t => t / 2)); [apply (is_derive_opp xl); apply xl_derive; lra|]. auto_derive; [trivial|reflexivity].
  - toR. unfold minus, plus, opp, scal; cbn. unfold mult; cbn. field. repeat split; try exact D0; lra.
Qed.
(** e1 tends to 0 at 0 *)
Lemma e1_small t : 0 < t < b -> t <= 1 -> Rabs (e1 t + rp s 1 1 t / D * -1) <= t.
Proof.
  intros Ht T1. unfold e1, ref1. pose proof (exp_pos (- t)) as P. pose proof (exp_lt1 t ltac:(lra)) as L. cbn [ReLi].
  unfold xl. rewrite (Rabs_pos_eq (1 - exp (- t))), (Rabs_pos_eq t) by lra.
  (* 1 - t <= exp(-t) <= 1 - t + t^2/2,  so  t(1-t/2) <= 1 - exp(-t) <= t *)
  assert (T2 : exp (- t) <= 1 - t + t * t / 2).
  { pose proof (exp_neg_taylor 2 t ltac:(lra)) as T2. simpl in T2. apply Rabs_le_between in T2. lra. }
  pose proof (exp_ineq1_le (- t)) as X.
  assert (U : 1 - exp (- t) <= t) by lra. 
  assert (LO : t * (1 - t / 2) <= 1 - exp (- t)).
  { lra. }
  assert (LN : ln (1 - exp (- t)) <= ln t) by (destruct U as [U|U]; [left; apply ln_increasing; lra|rewrite U; lra]).
  assert (LL : ln t - t <= ln (1 - exp (- t))).
  { assert (Q : 0 < t * (1 - t / 2)) by nra. apply Rle_trans with (ln (t * (1 - t / 2))); [|destruct LO as [LO|LO]; [left; apply ln_increasing; lra|rewrite LO; lra]].
    rewrite ln_mult by lra. pose proof (exp_ineq1_le (- t)) as _. 
    assert (- t <= ln (1 - t / 2)). { rewrite <- (ln_exp (- t)). assert (exp (- t) <= 1 - t / 2). { nra. } destruct H as [H|H]; [left; apply ln_increasing; [apply exp_pos|exact H]|rewrite H; lra]. }
    lra. }
  rewrite Rabs_le_between. 
  replace (- ln (1 - exp (- t)) - (- ln t + t / 2 - rp s 1 1 t / D) + rp s 1 1 t / D * -1) with (ln t - ln (1 - exp (- t)) - t / 2) by ring. lra.
Qed.
Definition e1' t := if Rlt_dec 0 t then e1 t else 0.
Lemma e1'_pos t : 0 < t -> e1' t = e1 t.
Proof. intros H. unfold e1'. destruct (Rlt_dec 0 t); [reflexivity|contradiction]. Qed.
Hypothesis bpos : 0 < b.
Lemma e1_cont : continuous e1' 0.
Proof.
  intros P [e He]. 
  assert (RC : continuous (fun t => rp s 1 1 t / D) 0) by apply rpD_cont.
  assert (Z : rp s 1 1 0 / D = 0) by (rewrite rp_0 by lia; unfold Rdiv; ring).
  assert (e2 : 0 < e / 2) by (destruct e; cbn; lra).
  destruct (RC (fun y => Rabs (y - rp s 1 1 0 / D) < e / 2)) as [d Hd]; [exists (mkposreal _ e2); intros y Hy; exact Hy|].
  assert (m0 : 0 < Rmin (Rmin d 1) (Rmin b (e / 2))) by (repeat apply Rmin_glb_lt; try lra; destruct d; cbn; lra).
  exists (mkposreal _ m0). intros t Ht. change (Rabs (t - 0) < Rmin (Rmin d 1) (Rmin b (e / 2))) in Ht.
  pose proof (Rmin_l (Rmin d 1) (Rmin b (e / 2))). pose proof (Rmin_r (Rmin d 1) (Rmin b (e / 2))).
  pose proof (Rmin_l d 1). pose proof (Rmin_r d 1). pose proof (Rmin_l b (e / 2)). pose proof (Rmin_r b (e / 2)).
  apply He. change (Rabs (e1' t - e1' 0) < e). unfold e1' at 2. destruct (Rlt_dec 0 0); [lra|]. rewrite Rminus_0_r. unfold e1'.
  destruct (Rlt_dec 0 t) as [T|T]; [|rewrite Rabs_R0; destruct e; cbn; lra].
  rewrite Rminus_0_r, Rabs_pos_eq in Ht by lra.
  specialize (Hd t). assert (BT : ball 0 d t) by (change (Rabs (t - 0) < d); rewrite Rminus_0_r, Rabs_pos_eq; lra). specialize (Hd BT). cbn beta in Hd. rewrite Z, Rminus_0_r in Hd.
  pose proof (e1_small t ltac:(lra) ltac:(lra)) as S. 
  replace (e1 t) with ((e1 t + rp s 1 1 t / D * -1) + rp s 1 1 t / D) by ring. eapply Rle_lt_trans; [apply Rabs_triang|]. lra.
Qed.
Lemma e1_bound t : 0 <= t < b -> Rabs (e1' t) <= c / INR (S k) * t ^ S k.
Proof.
  intros Ht. replace (e1' t) with (e1' t - e1' 0) by (unfold e1' at 2; destruct (Rlt_dec 0 0); lra).
  apply (chain_step e1' (fun t => - (/ 2 * ((1 + exp (- t)) / (1 - exp (- t))) - / t - rp s 0 1 t / D)) c k b); [| apply e1_cont| |exact Ht].
  - intros u Hu. apply (is_derive_ext_loc e1); [|apply e1_derive; exact Hu].
    apply (locally_interval _ u 0 p_infty); [apply Hu|exact I|]. intros y Hy _. cbn in Hy. symmetry. apply e1'_pos. exact Hy.
  - intros u Hu. rewrite Rabs_Ropp. apply coth_err. exact Hu.
Qed.
Lemma exp_chain2 t : 0 <= t < b -> Rabs (ReLi 2 (exp (- t)) - r2 t) <= c / INR (S k) / INR (S (S k)) * t ^ S (S k).
Proof.
  intros Ht. pose proof (chain_step (fun t => ReLi 2 (exp (- t)) - r2 t) (fun t => - ReLi 1 (exp (- t)) - - r1 t) (c / INR (S k)) (S k) b) as K.
  assert (Z : ReLi 2 (exp (- 0)) - r2 0 = 0) by (unfold ref2; rewrite Ropp_0, exp_0, rp_0 by lia; unfold Rdiv; ring).
  replace (ReLi 2 (exp (- t)) - r2 t) with (ReLi 2 (exp (- t)) - r2 t - (ReLi 2 (exp (- 0)) - r2 0)) by lra.
  apply K; [| | |exact Ht].
  - intros u Hu. apply (is_derive_minus (fun t => ReLi 2 (exp (- t))) (r2)); [apply ReLi_exp_derive; [lia|lra]|apply ref2_derive; [exact D0|lra]].
  - apply (continuous_minus (fun t => ReLi 2 (exp (- t))) (r2)); [apply ReLi_exp_cont; lia|apply ref2_cont].
  - intros u Hu. replace (- ReLi 1 (exp (- u)) - - r1 u) with (- e1' u) by (rewrite e1'_pos by lra; unfold e1; ring). rewrite Rabs_Ropp. apply e1_bound. lra.
Qed.
Lemma exp_chain3 t : 0 <= t < b -> Rabs (ReLi 3 (exp (- t)) - r3 t) <= c / INR (S k) / INR (S (S k)) / INR (S (S (S k))) * t ^ S (S (S k)).
Proof.
  intros Ht. pose proof (chain_step (fun t => ReLi 3 (exp (- t)) - r3 t) (fun t => - ReLi 2 (exp (- t)) - - r2 t) (c / INR (S k) / INR (S (S k))) (S (S k)) b) as K.
  assert (Z : ReLi 3 (exp (- 0)) - r3 0 = 0) by (unfold ref3; rewrite Ropp_0, exp_0, rp_0 by lia; cbn [pow]; unfold Rdiv; ring).
  replace (ReLi 3 (exp (- t)) - r3 t) with (ReLi 3 (exp (- t)) - r3 t - (ReLi 3 (exp (- 0)) - r3 0)) by lra.
  apply K; [| | |exact Ht].
  - intros u Hu. apply (is_derive_minus (fun t => ReLi 3 (exp (- t))) (r3)); [apply ReLi_exp_derive; [lia|lra]|apply ref3_derive; [exact D0|lra]].
  - apply (continuous_minus (fun t => ReLi 3 (exp (- t))) (r3)); [apply ReLi_exp_cont; lia|apply ref3_cont].
  - intros u Hu. replace (- ReLi 2 (exp (- u)) - - r2 u) with (- (ReLi 2 (exp (- u)) - r2 u)) by ring. rewrite Rabs_Ropp. apply exp_chain2. lra.
Qed.
Lemma exp_chain4 t : 0 <= t < b -> Rabs (ReLi 4 (exp (- t)) - r4 t) <= c / INR (S k) / INR (S (S k)) / INR (S (S (S k))) / INR (S (S (S (S k)))) * t ^ S (S (S (S k))).
Proof.
  intros Ht. pose proof (chain_step (fun t => ReLi 4 (exp (- t)) - r4 t) (fun t => - ReLi 3 (exp (- t)) - - r3 t) (c / INR (S k) / INR (S (S k)) / INR (S (S (S k)))) (S (S (S k))) b) as K.
  assert (Z : ReLi 4 (exp (- 0)) - r4 0 = 0) by (unfold ref4; rewrite Ropp_0, exp_0, rp_0 by lia; cbn [pow]; unfold Rdiv; ring).
  replace (ReLi 4 (exp (- t)) - r4 t) with (ReLi 4 (exp (- t)) - r4 t - (ReLi 4 (exp (- 0)) - r4 0)) by lra.
  apply K; [| | |exact Ht].
  - intros u Hu. apply (is_derive_minus (fun t => ReLi 4 (exp (- t))) (r4)); [apply ReLi_exp_derive; [lia|lra]|apply ref4_derive; [exact D0|lra]].
  - apply (continuous_minus (fun t => ReLi 4 (exp (- t))) (r4)); [apply ReLi_exp_cont; lia|apply ref4_cont].
  - intros u Hu. replace (- ReLi 3 (exp (- u)) - - r3 u) with (- (ReLi 3 (exp (- u)) - r3 u)) by ring. rewrite Rabs_Ropp. apply exp_chain3. lra.
Qed.
End Gen.

(** the three Bernoulli terms of the code *)
Definition s3 : list Z := [2520; -42; 1]%Z.
Lemma s3_rp t : rp s3 0 1 t / 30240 = t / 12 - t ^ 3 / 720 + t ^ 5 / 30240.
Proof. unfold s3. cbn [rp poch Nat.mul Nat.add Nat.sub]. field. Qed.
Lemma coth3 t : 0 < t < 9 / 40 -> Rabs (/ 2 * ((1 + exp (- t)) / (1 - exp (- t))) - / t - rp s3 0 1 t / 30240) <= / 10 ^ 6 * t ^ 7.
Proof.
  intros Ht. rewrite s3_rp. pose proof (exp_neg_taylor 13 t ltac:(lra)) as TT. pose proof (exp_neg_taylor 2 t ltac:(lra)) as T2.
  pose proof (exp_pos (- t)) as P. pose proof (exp_lt1 t ltac:(lra)) as L.
  assert (LO : t * (71 / 80) <= 1 - exp (- t)).
  { simpl in T2. apply Rabs_le_between in T2. nra. }
  set (e := exp (- t)) in *. set (T := eT 13 t) in *. set (S := t / 12 - t ^ 3 / 720 + t ^ 5 / 30240).
  assert (FS : Rabs S <= / 40) by (unfold S; interval).
  assert (HR : Rabs (e - T) <= t ^ 9 / 10 ^ 12).
  { eapply Rle_trans; [exact TT|]. fact_num.
    replace (t ^ 13) with (t ^ 9 * t ^ 4) by ring. assert (0 <= t ^ 9) by (apply pow_le; lra).
    replace (t ^ 9 * t ^ 4 / 6227020800) with (t ^ 9 * (t ^ 4 / 6227020800)) by (field). unfold Rdiv at 2. apply Rmult_le_compat_l; [assumption|]. interval. }
  assert (BR : / 2 * t * (1 + T) - (1 - T) - t * S * (1 - T) =
     t ^ 9 * (- 1 / 1209600 + t * (1 / 2419200 + t * (- 1 / 8553600 + t * (23 / 958003200 + t * (- 19 / 5029516800 + t * (41 / 67060224000 + t * (-17 / 301771008000 + t * (1 / 160944537600 + t * (- 1 / 1207084032000 + t * (1 / 14485008384000))))))))))).
  { unfold T, S. clear. cbn [eT]. fact_num. field. }
  assert (BB : Rabs (/ 2 * t * (1 + T) - (1 - T) - t * S * (1 - T)) <= t ^ 9 * (86 / 10 ^ 8)).
  { rewrite BR, Rabs_mult. rewrite (Rabs_pos_eq (t ^ 9)) by (apply pow_le; lra). apply Rmult_le_compat_l; [apply pow_le; lra|]. interval. }
  assert (RR : Rabs ((e - T) * (/ 2 * t + 1 + t * S)) <= t ^ 9 / 10 ^ 12 * 2).
  { rewrite Rabs_mult. apply Rmult_le_compat; try apply Rabs_pos; [exact HR|]. apply Rabs_le_between in FS. apply Rabs_le. split; nra. }
  replace (/ 2 * ((1 + e) / (1 - e)) - / t - S) with (((/ 2 * t * (1 + T) - (1 - T) - t * S * (1 - T)) + (e - T) * (/ 2 * t + 1 + t * S)) * / (t * (1 - e))) by (field; lra).
  rewrite Rabs_mult, (Rabs_pos_eq (/ _)) by (left; apply Rinv_0_lt_compat; nra).
  apply (Rmult_le_reg_r (t * (1 - e))); [nra|]. rewrite Rmult_assoc, Rinv_l, Rmult_1_r by nra.
  eapply Rle_trans; [apply Rabs_triang|]. eapply Rle_trans; [apply Rplus_le_compat; [exact BB|exact RR]|].
  apply Rle_trans with (/ 10 ^ 6 * t ^ 7 * (t * (t * (71 / 80)))).
  - replace (/ 10 ^ 6 * t ^ 7 * (t * (t * (71 / 80)))) with (t ^ 9 * (/ 10 ^ 6 * (71 / 80))) by field.
    assert (0 <= t ^ 9) by (apply pow_le; lra). unfold Rdiv. nra.
  - apply Rmult_le_compat_l; [apply Rmult_le_pos; [lra|apply pow_le; lra]|]. apply Rmult_le_compat_l; lra.
Qed.
Lemma one4 t : 0 <= t < 9 / 40 -> Rabs (ReLi 4 (exp (- t)) - ref4 s3 30240 (ReLi 2 1) (ReLi 3 1) (ReLi 4 1) t) <= 10 / 10 ^ 18.
Proof.
  intros Ht. eapply Rle_trans; [apply (exp_chain4 s3 30240 ltac:(lra) (/ 10 ^ 6) 7 (9 / 40)); [exact coth3|lra|exact Ht]|].
  replace (INR 8) with 8 by (simpl; ring). replace (INR 9) with 9 by (simpl; ring). replace (INR 10) with 10 by (simpl; ring). replace (INR 11) with 11 by (simpl; ring).
  assert (t ^ 11 <= 76 / 10 ^ 9) by interval. lra.
Qed.

(** ** the cores *)
Definition P4n := li4_neg_cp NumLit. Definition Q4n := li4_neg_cq NumLit.
Definition P4h := li4_half_cp NumLit. Definition Q4h := li4_half_cq NumLit.
Definition P4m := li4_mid_cp NumLit. Definition Q4m := li4_mid_cq NumLit.
Ltac core_eval := 
  cbn [NumR add mul div car aref nth lit lift2 li4_neg_cp li4_neg_cq li4_half_cp li4_half_cq li4_mid_cp li4_mid_cq];
  cbn [P4n Q4n P4h Q4h P4m Q4m li4_neg_cp li4_neg_cq li4_half_cp li4_half_cq li4_mid_cp li4_mid_cq plit lit NumLit] in *; unfold litp in *; cbn [fst snd] in *.
Lemma neg4_eval ep x : plit Q4n x <> 0 -> li4_neg (NumR ep) (Some x) = Some (x * (plit P4n x / plit Q4n x)).
Proof.
  intros H. unfold li4_neg. core_eval. rewrite odiv_some.
  - f_equal. unfold Rdiv. rewrite !Rmult_assoc. f_equal. f_equal; [ring|]. f_equal. ring.
  - intros E. apply H. etransitivity; [|exact E]. ring.
Qed.
Lemma half4_eval ep x : plit Q4h x <> 0 -> li4_half (NumR ep) (Some x) = Some (x * (plit P4h x / plit Q4h x)).
Proof.
  intros H. unfold li4_half. core_eval. rewrite odiv_some.
  - f_equal. unfold Rdiv. rewrite !Rmult_assoc. f_equal. f_equal; [ring|]. f_equal. ring.
  - intros E. apply H. etransitivity; [|exact E]. ring.
Qed.
Lemma mid4_eval ep x : plit Q4m x <> 0 -> li4_mid (NumR ep) (Some x) = Some (plit P4m x / plit Q4m x).
Proof.
  intros H. unfold li4_mid. core_eval. rewrite odiv_some.
  - f_equal. unfold Rdiv. f_equal; [ring|]. f_equal. ring.
  - intros E. apply H. etransitivity; [|exact E]. ring.
Qed.
(** reference on [0,4/5] *)
Fixpoint cgen (K : nat) (a b : list Z) : list Z :=
  match K with O => a | S k => cgen k b (psub (padd (pscal (-2) b) (0%Z :: pscal 5 b)) a) end.
Definition ref45 (K : nat) := let t := cgen K [2%Z] [(-2)%Z; 5%Z] in let D := fold_right Z.add 0%Z t in
  {| rf_zs := removelast (prefix_sums 0 (psub [D] t)); rf_D := D; rf_M := lcm_to K |}.
Definition refM := Eval vm_compute in ref45 50.
Lemma refM_ok : ref_check refM 2 2 5 2 1 2 (10 ^ 20) = true.
Proof. vm_compute. reflexivity. Qed.
Lemma check_4n : ratio_list (-1) 1 0 1 (split_iv 16 (-1) 0 1 16) (zs_of 24 P4n) (zs_of 24 Q4n) (rf_poly refN 4) (rf_den refN 4) 20 (10 ^ 18) = true.
Proof. vm_compute. reflexivity. Qed.
Lemma check_4h : ratio_list 0 1 1 2 (split_iv 16 0 1 2 16) (zs_of 23 P4h) (zs_of 23 Q4h) (rf_poly refH 4) (rf_den refH 4) 100 (10 ^ 18) = true.
Proof. vm_compute. reflexivity. Qed.
Lemma check_4m : ratio_list 1 2 4 5 (split_iv 8 5 8 10 8) (zs_of 28 P4m) (zs_of 28 Q4m) (0%Z :: rf_poly refM 4) (rf_den refM 4) 10 (10 ^ 18) = true.
Proof. vm_compute. reflexivity. Qed.
Theorem li4_neg_accuracy ep y : -1 <= y <= 0 -> exists v, li4_neg (NumR ep) (Some y) = Some v /\ Rabs (v - ReLi 4 y) <= 21 / 10 ^ 18 * - y.
Proof.
  intros Hy. destruct (ratio_list_ok _ _ _ _ _ _ _ _ _ _ _ check_4n y ltac:(lra)) as [Q0 U].
  destruct (scale_ratio P4n Q4n 24 y eq_refl eq_refl ltac:(lra)) as [N E]. eexists. split; [apply neg4_eval; exact N|]. rewrite E.
  eapply Rle_trans; [apply (core_err_abs 4 y _ _ _ _ U (refN_bound 4 y ltac:(lia) Hy))|].
  replace (Rabs y) with (- y) by (rewrite Rabs_left1; lra). apply Rmult_le_compat_r; [lra|]. p10 18%nat. lra.
Qed.
Theorem li4_half_accuracy ep y : 0 < y <= / 2 -> exists v, li4_half (NumR ep) (Some y) = Some v /\ Rabs (v - ReLi 4 y) <= 101 / 10 ^ 18 * y.
Proof.
  intros Hy. destruct (ratio_list_ok _ _ _ _ _ _ _ _ _ _ _ check_4h y (half_iv y Hy)) as [Q0 U].
  destruct (scale_ratio P4h Q4h 23 y eq_refl eq_refl ltac:(lra)) as [N E]. eexists. split; [apply half4_eval; exact N|]. rewrite E.
  eapply Rle_trans; [apply (core_err 4 y _ _ _ _ _ ltac:(lra) U (refH_bound 4 y ltac:(lia) Hy) eq_refl)|].
  apply Rmult_le_compat_r; [lra|]. p10 18%nat. lra.
Qed.
Theorem li4_mid_accuracy ep y : / 2 <= y <= 4 / 5 -> exists v, li4_mid (NumR ep) (Some y) = Some v /\ Rabs (v - ReLi 4 y) <= 11 / 10 ^ 18.
Proof.
  intros Hy. destruct (ratio_list_ok _ _ _ _ _ _ _ _ _ _ _ check_4m y ltac:(lra)) as [Q0 U].
  destruct (scale_ratio P4m Q4m 28 y eq_refl eq_refl ltac:(lra)) as [N E]. eexists. split; [apply mid4_eval; exact N|]. rewrite E.
  pose proof (ref_bound _ _ _ _ _ _ _ _ refM_ok 4 y ltac:(lia) ltac:(lra)) as B. rewrite (Rabs_pos_eq y) in B by lra.
  cbn [pz] in U. rewrite Rplus_0_l in U. p10 18%nat in U. p10 20%nat in B.
  replace (pz (zs_of 28 P4m) y / pz (zs_of 28 Q4m) y - ReLi 4 y) with
   ((pz (zs_of 28 P4m) y / pz (zs_of 28 Q4m) y - y * pz (rf_poly refM 4) y / IZR (rf_den refM 4)) + (y * (pz (rf_poly refM 4) y / IZR (rf_den refM 4)) - ReLi 4 y)) by (unfold Rdiv; ring).
  eapply Rle_trans; [apply Rabs_comb; [exact U|exact B]|]. lra.
Qed.
Lemma eta4_num : Rabs (- 9470328294972459175765 / 10 ^ 22 - ReLi 4 (-1)) <= 4 / 10 ^ 22.
Proof.
  pose proof (m1_ok 4 (-9470328294972459175765) 22 2 ltac:(lia) ltac:(vm_compute; reflexivity)) as H.
  p10 22%nat in H. eapply Rle_trans; [exact H|]. lra.
Qed.
Lemma zeta4_lit : Rabs (10823232337111382 / 10 ^ 16 - ReLi 4 1) <= 9 / 10 ^ 18.
Proof. pose proof eta4_num as H. rewrite Li4_m1 in H. apply Rabs_le_between in H. apply Rabs_le. lra. Qed.
Lemma zeta3_lit : Rabs (12020569031595943 / 10 ^ 16 - ReLi 3 1) <= 16 / 10 ^ 18.
Proof. pose proof zeta3_num as Z3. apply Rabs_le_between in Z3; apply Rabs_le; lra. Qed.
Lemma litR10 m k n : Z.pos k = Z.of_nat n -> litR m (Z.neg k) = IZR m / 10 ^ n.
Proof. intros H. rewrite litR_dec, H, p10. reflexivity. Qed.
Lemma ln45 : ln (4 / 5) > - (9 / 40).
Proof. interval. Qed.
Theorem li4_one_accuracy ep x : 4 / 5 <= x < 1 -> exists v, li4_one (NumR ep) (Some x) = Some v /\ Rabs (v - ReLi 4 x) <= 30 / 10 ^ 18.
Proof.
  intros Hx. unfold li4_one. cbn [NumR lit car ltb eqb sub add mul div opp nlog nlog1p ocmp lift1 lift2]. rewrite !litR_int, litR_half.
  rewrite (litR10 16449340668482264 16 16), (litR10 12020569031595943 16 16), (litR10 10823232337111382 16 16) by reflexivity.
  rewrite (olog_some x) by lra. cbn [lift1 lift2]. 
  assert (L : ln x < 0) by (rewrite <- ln_1; apply ln_increasing; lra). 
  assert (LB : - (9 / 40) < ln x). { pose proof ln45. destruct (Req_dec x (4 / 5)) as [->|]; [lra|]. assert (ln (4 / 5) < ln x) by (apply ln_increasing; lra). lra. }
  rewrite olog_some by lra. rewrite !odiv_some by lra. cbn [lift1 lift2]. eexists. split; [reflexivity|].
  pose proof (one4 (- ln x) ltac:(lra)) as O. rewrite Ropp_involutive, exp_ln in O by lra.
  unfold ref4, xl in O. rewrite (Rabs_pos_eq (- ln x)) in O by lra.
  pose proof zeta2_lit as Z2. pose proof zeta3_lit as Z3. pose proof zeta4_lit as Z4.
  set (z2 := 16449340668482264 / 10 ^ 16) in *. set (z3 := 12020569031595943 / 10 ^ 16) in *. set (z4 := 10823232337111382 / 10 ^ 16) in *.
  set (l := ln x) in *. 
  replace (rp s3 4 1 (- l) / 30240) with (- (l ^ 5 / 1440 - l ^ 7 / 604800 + l ^ 9 / 91445760)) in O.
  2: { unfold s3. cbn [rp poch]. change (2 * 1)%nat with 2%nat. change (2 * 2)%nat with 4%nat. change (2 * 3)%nat with 6%nat. cbn [Nat.add Nat.sub]. simpl INR. field. }
  match goal with |- Rabs (?v - _) <= _ => set (V := v) end.
  replace (V - ReLi 4 x) with ((z4 - ReLi 4 1) + (l * (z3 - ReLi 3 1) + (l * l / 2 * (z2 - ReLi 2 1) + 
    - (ReLi 4 x - (ReLi 4 1 - ReLi 3 1 * - l + ReLi 2 1 / 2 * (- l * - l) + - l * - l * (- l * ln (- l)) / 6 - 11 / 36 * (- l) ^ 3 - (- l) ^ 4 / 48 + - (l ^ 5 / 1440 - l ^ 7 / 604800 + l ^ 9 / 91445760)))))) by (unfold V; field).
  eapply Rle_trans.
  - apply Rabs_comb; [exact Z4|apply Rabs_comb; [rewrite Rabs_mult; apply Rmult_le_compat; [apply Rabs_pos|apply Rabs_pos| |exact Z3]; rewrite Rabs_left by lra; instantiate (1 := 9/40); lra|
     apply Rabs_comb; [rewrite Rabs_mult; apply Rmult_le_compat; [apply Rabs_pos|apply Rabs_pos| |exact Z2]; rewrite Rabs_pos_eq by nra; instantiate (1 := 1 / 38); nra|rewrite Rabs_Ropp; exact O]]].
  - lra.
Qed.

(** ** the theorem *)
Definition app4 (N : num) (x : N) : N :=
  if ltb N x (lit N 0 0) then li4_neg N x
  else if ltb N x (lit N 5 (-1)) then li4_half N x
  else if ltb N x (lit N 8 (-1)) then li4_mid N x else li4_one N x.
Lemma app4_accuracy ep y : -1 <= y < 1 -> y <> 0 -> exists v, app4 (NumR ep) (Some y) = Some v /\ Rabs (v - ReLi 4 y) <= 101 / 10 ^ 18 * Rabs y.
Proof.
  intros Hy N0. unfold app4. cbn [NumR ltb lit ocmp]. rewrite litR_int, litR_half. rewrite (litR10 8 1 1) by reflexivity.
  destruct (Rlt_le_dec y 0) as [L0|L0].
  { rewrite Rltb_true by exact L0. destruct (li4_neg_accuracy ep y ltac:(lra)) as (v & E & B). exists v. split; [exact E|]. rewrite (Rabs_left y) by lra. lra. }
  rewrite Rltb_false by lra. rewrite (Rabs_pos_eq y) by lra.
  destruct (Rlt_le_dec y (/ 2)) as [L1|L1].
  { rewrite Rltb_true by exact L1. apply li4_half_accuracy. lra. }
  rewrite Rltb_false by lra.
  destruct (Rlt_le_dec y (8 / 10 ^ 1)) as [L2|L2].
  { rewrite Rltb_true by exact L2. destruct (li4_mid_accuracy ep y ltac:(lra)) as (v & E & B). exists v. split; [exact E|]. lra. }
  rewrite Rltb_false by lra. destruct (li4_one_accuracy ep y ltac:(lra)) as (v & E & B). exists v. split; [exact E|]. lra.
Qed.

Theorem Li4_d_accuracy x : exists v, Li4_d RD (Some x) = Some v /\
  Rabs (v - ReLi 4 x) <= 2 / 10 ^ 16 * Rmin 1 (Rabs x) + 4 / 10 ^ 17 * (ln (Rmax 1 (Rabs x))) ^ 2.
Proof.
  assert (SH : forall (N : num) (x : N), Li4_d N x =
    let zeta2 := lit N 16449340668482264 (-16) in
    let zeta4 := lit N 10823232337111382 (-16) in
    if ltb N x (lit N (-1) 0) then
      let l := nlog N (opp N x) in let l2 := mul N l l in
      add N (add N (mul N (div N (lit N (-7) 0) (lit N 4 0)) zeta4) (mul N l2 (sub N (mul N (lit N (-5) (-1)) zeta2) (mul N (div N (lit N 1 0) (lit N 24 0)) l2)))) (mul N (lit N (-1) 0) (app4 N (div N (lit N 1 0) x)))
    else if eqb N x (lit N (-1) 0) then mul N (div N (lit N (-7) 0) (lit N 8 0)) zeta4
    else if eqb N x (lit N 0 0) then x
    else if ltb N x (lit N 1 0) then add N (lit N 0 0) (mul N (lit N 1 0) (app4 N x))
    else if eqb N x (lit N 1 0) then zeta4
    else let l := nlog N x in let l2 := mul N l l in
      add N (add N (mul N (lit N 2 0) zeta4) (mul N l2 (sub N zeta2 (mul N (div N (lit N 1 0) (lit N 24 0)) l2)))) (mul N (lit N (-1) 0) (app4 N (div N (lit N 1 0) x)))) by reflexivity.
  rewrite SH. clear SH. unfold RD. cbv zeta. cbn [NumR lit car ltb eqb sub add mul div opp nlog nlog1p ocmp lift1 lift2].
  fold (NumR eps_d). rewrite !litR_int, litR_mhalf. rewrite (litR10 16449340668482264 16 16), (litR10 10823232337111382 16 16) by reflexivity.
  pose proof zeta2_lit as Z2. pose proof zeta4_lit as Z4.
  set (z2 := 16449340668482264 / 10 ^ 16) in *. set (z4 := 10823232337111382 / 10 ^ 16) in *.
  rewrite !(odiv_some 1 24), !(odiv_some (-7)) by lra. cbn [lift2].
  destruct (Rlt_le_dec x (-1)) as [L|L].
  { rewrite Rltb_true by exact L. rewrite (odiv_some 1), olog_some by lra. cbn [lift1 lift2].
    assert (Y : -1 <= 1 / x < 0).
    { unfold Rdiv. rewrite Rmult_1_l. replace (/ x) with (- / (- x)) by (field; lra).
      assert (0 < / - x) by (apply Rinv_0_lt_compat; lra). assert (/ - x <= / 1) by (apply Rinv_le_contravar; lra). lra. }
    destruct (app4_accuracy eps_d (1 / x) ltac:(lra) ltac:(lra)) as (w & -> & W). cbn [lift2].
    eexists. split; [reflexivity|]. rewrite Rmin_left, Rmax_right by (rewrite Rabs_left; lra). rewrite (Rabs_left x) by lra.
    rewrite (Rabs_left (1 / x)) in W by lra.
    pose proof (Li4_inversion (-1) x (or_intror eq_refl) ltac:(lra)) as IV. rewrite (Rabs_left x), Li2_m1, Li4_m1 in IV by lra.
    replace (/ x) with (1 / x) in IV by (unfold Rdiv; ring). set (l := ln (- x)) in *. 
    replace (-7 / 4 * z4 + l * l * (- / 2 * z2 - 1 / 24 * (l * l)) + -1 * w - ReLi 4 x) with (- (w - ReLi 4 (1 / x)) + (- (7 / 4) * (z4 - ReLi 4 1) + l ^ 2 * (- / 2 * (z2 - ReLi 2 1)))) by (match type of IV with _ = ?r => replace (ReLi 4 x) with (r - ReLi 4 (1 / x)) by (rewrite <- IV; ring) end; field).
    pose proof (pow2_ge_0 l) as L2.
    eapply Rle_trans.
    - apply Rabs_comb; [rewrite Rabs_Ropp; exact W|]. apply Rabs_comb; rewrite Rabs_mult; apply Rmult_le_compat; try apply Rabs_pos; [rewrite Rabs_left by lra; apply Rle_refl|exact Z4|rewrite Rabs_pos_eq by exact L2; apply Rle_refl|].
      rewrite Rabs_mult, Rabs_left by lra. apply Rmult_le_compat_l; [lra|exact Z2].
    - nra. }
  rewrite Rltb_false by lra.
  destruct (Req_dec x (-1)) as [->|N1].
  { rewrite Reqb_true by reflexivity. eexists; split; [reflexivity|]. rewrite Li4_m1.
    replace (Rabs (-1)) with 1 by (rewrite Rabs_left; lra). rewrite Rmin_left, Rmax_left, ln_1 by lra.
    apply Rabs_le_between in Z4. apply Rabs_le. lra. }
  rewrite Reqb_false by exact N1.
  destruct (Req_dec x 0) as [->|N0].
  { rewrite Reqb_true by reflexivity. eexists; split; [reflexivity|]. rewrite ReLi_0 by lia. rewrite Rminus_0_r, Rabs_R0, Rmin_right, Rmax_left, ln_1 by lra. lra. }
  rewrite Reqb_false by exact N0.
  destruct (Rlt_le_dec x 1) as [L2|L2].
  { rewrite Rltb_true by exact L2. destruct (app4_accuracy eps_d x ltac:(lra) N0) as (w & -> & W). cbn [lift2]. eexists. split; [reflexivity|].
    replace (0 + 1 * w) with w by ring. assert (Rabs x <= 1) by (apply Rabs_le; lra). rewrite Rmin_right, Rmax_left, ln_1 by lra. pose proof (Rabs_pos x). lra. }
  rewrite Rltb_false by lra.
  destruct (Req_dec x 1) as [->|N3].
  { rewrite Reqb_true by reflexivity. eexists; split; [reflexivity|]. rewrite Rabs_R1, Rmin_left, Rmax_left, ln_1 by lra. lra. }
  rewrite Reqb_false by exact N3. rewrite (Rabs_pos_eq x) by lra. rewrite Rmin_left, Rmax_right by lra.
  rewrite odiv_some, olog_some by lra. cbn [lift1 lift2].
  assert (Y : 0 < 1 / x < 1). { unfold Rdiv. rewrite Rmult_1_l. split; [apply Rinv_0_lt_compat; lra|]. rewrite <- Rinv_1. apply Rinv_lt_contravar; lra. }
  destruct (app4_accuracy eps_d (1 / x) ltac:(lra) ltac:(lra)) as (w & -> & W). cbn [lift2]. rewrite (Rabs_pos_eq (1 / x)) in W by lra.
  eexists. split; [reflexivity|].
  pose proof (Li4_inversion 1 x (or_introl eq_refl) ltac:(lra)) as IV. rewrite (Rabs_pos_eq x) in IV by lra.
  replace (/ x) with (1 / x) in IV by (unfold Rdiv; ring). set (l := ln x) in *. 
  replace (2 * z4 + l * l * (z2 - 1 / 24 * (l * l)) + -1 * w - ReLi 4 x) with (- (w - ReLi 4 (1 / x)) + (2 * (z4 - ReLi 4 1) + l ^ 2 * (z2 - ReLi 2 1))) by (match type of IV with _ = ?r => replace (ReLi 4 x) with (r - ReLi 4 (1 / x)) by (rewrite <- IV; ring) end; field).
  pose proof (pow2_ge_0 l) as LL.
  eapply Rle_trans.
  - apply Rabs_comb; [rewrite Rabs_Ropp; exact W|]. apply Rabs_comb; rewrite Rabs_mult; apply Rmult_le_compat; try apply Rabs_pos; [rewrite Rabs_pos_eq by lra; apply Rle_refl|exact Z4|rewrite Rabs_pos_eq by exact LL; apply Rle_refl|exact Z2].
  - nra.
Qed.
