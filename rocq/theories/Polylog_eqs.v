(** * Functional equations of the real polylogarithms

    Reflection, Landen, inversion and duplication for the functions of Polylog.v,
    for every real argument.  Nothing here mentions the code. *)
From Coq Require Import Reals Lra Lia Psatz ZArith.
From Coquelicot Require Import Coquelicot.
From Verif Require Import Polylog Polylog_series.
Local Open Scope R_scope.

Lemma lnabs_opp x : ln (Rabs (- x)) = ln (Rabs x).
Proof. rewrite Rabs_Ropp. reflexivity. Qed.
Lemma lnabs_inv x : x <> 0 -> ln (Rabs (/ x)) = - ln (Rabs x).
Proof. intros H. rewrite Rabs_inv. apply ln_Rinv. apply Rabs_pos_lt. exact H. Qed.
Lemma lnabs_mul x y : x <> 0 -> y <> 0 -> ln (Rabs (x * y)) = ln (Rabs x) + ln (Rabs y).
Proof. intros H K. rewrite Rabs_mult. apply ln_mult; apply Rabs_pos_lt; assumption. Qed.
Lemma lnabs_1 : ln (Rabs 1) = 0.
Proof. rewrite Rabs_R1. apply ln_1. Qed.
Lemma ln_0 : ln 0 = 0.
Proof. unfold ln. destruct (Rlt_dec 0 0) as [H|H]; [exfalso; exact (Rlt_irrefl 0 H)|reflexivity]. Qed.
Lemma lnabs_0 : ln (Rabs 0) = 0.
Proof. rewrite Rabs_R0. apply ln_0. Qed.

(** constancy with one exceptional point *)
Lemma const_except (f : R -> R) p a b : (forall x, Rmin a b <= x <= Rmax a b -> continuous f x) ->
  (forall x, Rmin a b < x < Rmax a b -> x <> p -> is_derive f x 0) -> f a = f b.
Proof.
  intros C D. assert (G : forall u v, Rmin a b <= u <= Rmax a b -> Rmin a b <= v <= Rmax a b -> (p <= u /\ p <= v) \/ (u <= p /\ v <= p) -> f u = f v).
  { intros u v Hu Hv K. apply const_on_closed'.
    - intros x Hx. apply C. split; [eapply Rle_trans; [|apply Hx]; apply Rmin_glb; lra|eapply Rle_trans; [apply Hx|]; apply Rmax_lub; lra].
    - intros x Hx. apply D.
      + split; [eapply Rle_lt_trans; [|apply Hx]; apply Rmin_glb; lra|eapply Rlt_le_trans; [apply Hx|]; apply Rmax_lub; lra].
      + intros ->. destruct K as [[K1 K2]|[K1 K2]].
        * assert (p <= Rmin u v) by (apply Rmin_glb; lra). lra.
        * assert (Rmax u v <= p) by (apply Rmax_lub; lra). lra. }
  assert (Ha : Rmin a b <= a <= Rmax a b) by (split; [apply Rmin_l|apply Rmax_l]).
  assert (Hb : Rmin a b <= b <= Rmax a b) by (split; [apply Rmin_r|apply Rmax_r]).
  destruct (Rle_dec p a) as [P1|P1], (Rle_dec p b) as [P2|P2].
  - apply G; auto.
  - transitivity (f p); apply G; auto; try lra; rewrite Rmin_right, Rmax_left in * by lra; lra.
  - transitivity (f p); apply G; auto; try lra; rewrite Rmin_left, Rmax_right in * by lra; lra.
  - apply G; auto. right. lra.
Qed.

(** ** log|x| log|1-x| is continuous everywhere *)
Definition psi (x : R) : R := ln (Rabs x) * ln (Rabs (1 - x)).
Lemma psi_sym x : psi (1 - x) = psi x.
Proof. unfold psi. replace (1 - (1 - x)) with x by ring. ring. Qed.
Lemma psi_eq x : x <> 1 -> psi x = (x * ln (Rabs x)) * ((x * haux x - 1) / (1 - x)).
Proof.
  intros H. unfold psi, haux, gaux. destruct (Req_EM_T x 0) as [->|N].
  - rewrite lnabs_0. ring.
  - field. split; lra.
Qed.
Lemma psi_continuous1 x : x <> 1 -> continuous psi x.
Proof.
  intros H. apply (continuous_ext_loc _ (fun x => (x * ln (Rabs x)) * ((x * haux x - 1) * / (1 - x)))).
  - generalize (locally_neq 1 x H). apply filter_imp. intros y Hy. symmetry. apply psi_eq. exact Hy.
  - apply (continuous_mult (fun x => x * ln (Rabs x)) (fun x => (x * haux x - 1) * / (1 - x))); [apply xlnx_continuous|].
    apply (continuous_mult (fun x => x * haux x - 1) (fun x => / (1 - x))).
    + apply (continuous_minus (fun x => x * haux x) (fun _ => 1)); [|apply continuous_const].
      apply (continuous_mult (fun x => x) haux); [apply continuous_id|apply haux_continuous].
    + apply (ex_derive_continuous (fun x => / (1 - x))). auto_derive. lra.
Qed.
Lemma psi_continuous x : continuous psi x.
Proof.
  destruct (Req_dec x 1) as [->|N]; [|apply psi_continuous1; exact N].
  apply (continuous_ext (fun x => psi (1 - x))); [apply psi_sym|].
  apply (continuous_comp (fun x => 1 - x) psi).
  - apply (continuous_minus (fun _ => 1) (fun t => t)); [apply continuous_const|apply continuous_id].
  - apply psi_continuous1. lra.
Qed.
Lemma is_derive_lnabs1m x : x <> 1 -> is_derive (fun t => ln (Rabs (1 - t))) x (/ (x - 1)).
Proof.
  intros H. replace (/ (x - 1)) with (-1 * / (1 - x)) by (field; lra).
  apply (is_derive_comp (fun u => ln (Rabs u)) (fun t => 1 - t)); [apply is_derive_lnabs; lra|]. auto_derive; [trivial|ring].
Qed.
Lemma psi_derive x : x <> 0 -> x <> 1 -> is_derive psi x (/ x * ln (Rabs (1 - x)) + ln (Rabs x) * / (x - 1)).
Proof.
  intros H0 H1. apply (is_derive_mult (fun x => ln (Rabs x)) (fun x => ln (Rabs (1 - x)))); [apply is_derive_lnabs; exact H0|apply is_derive_lnabs1m; exact H1|intros; apply Rmult_comm].
Qed.

Lemma oneminus_continuous x : continuous (fun x => 1 - x) x.
Proof. apply (ex_derive_continuous (fun x => 1 - x)). auto_derive. trivial. Qed.
(** ** derivatives of composed polylogarithms *)
Lemma ReLi_comp_derive n (g : R -> R) x g' : (1 <= n)%nat -> g x <> 0 -> g x <> 1 -> is_derive g x g' ->
  is_derive (fun x => ReLi (S n) (g x)) x (g' * (ReLi n (g x) / g x)).
Proof.
  intros Hn H0 H1 D. apply (is_derive_comp (ReLi (S n)) g); [|exact D]. apply ReLi_derive_n0; auto.
Qed.
Lemma ReLi_comp_continuous n (g : R -> R) x : (2 <= n)%nat -> continuous g x -> continuous (fun x => ReLi n (g x)) x.
Proof. intros Hn C. apply (continuous_comp g (ReLi n)); [exact C|]. apply ReLi_props. exact Hn. Qed.
Lemma ReLi_0 n : (1 <= n)%nat -> ReLi n 0 = 0.
Proof.
  intros H. destruct (Nat.eq_dec n 1) as [->|]; [cbn [ReLi]; replace (1 - 0) with 1 by ring; rewrite lnabs_1; ring|].
  apply ReLi_props. lia.
Qed.

(** ** Reflection: Li2(x) + Li2(1-x) + log|x| log|1-x| = Li2(1) for every real x *)
Theorem Li2_reflection x : ReLi 2 x + ReLi 2 (1 - x) + ln (Rabs x) * ln (Rabs (1 - x)) = ReLi 2 1.
Proof.
  set (f := fun x => ReLi 2 x + ReLi 2 (1 - x) + psi x).
  assert (C : forall x, continuous f x).
  { intros y. apply (continuous_plus (fun x => ReLi 2 x + ReLi 2 (1 - x)) psi); [|apply psi_continuous].
    apply (continuous_plus (ReLi 2) (fun x => ReLi 2 (1 - x))); [apply (ReLi_props 2); lia|].
    apply (ReLi_comp_continuous 2 (fun x => 1 - x)); [lia|apply oneminus_continuous]. }
  assert (D : forall x, x <> 0 -> x <> 1 -> is_derive f x 0).
  { intros y H0 H1. 
    replace 0 with (ReLi 1 y / y + -1 * (ReLi 1 (1 - y) / (1 - y)) + (/ y * ln (Rabs (1 - y)) + ln (Rabs y) * / (y - 1))).
    - apply (is_derive_plus (fun x => ReLi 2 x + ReLi 2 (1 - x)) psi); [|apply psi_derive; auto].
      apply (is_derive_plus (ReLi 2) (fun x => ReLi 2 (1 - x))); [apply ReLi_derive_n0; auto|].
      apply (ReLi_comp_derive 1 (fun x => 1 - x)); try lra; [lia|]. auto_derive; [trivial|ring].
    - cbn [ReLi]. replace (1 - (1 - y)) with y by ring. field. split; lra. }
  assert (f0 : f 0 = ReLi 2 1).
  { unfold f, psi. rewrite lnabs_0, ReLi_0 by lia. replace (1 - 0) with 1 by ring. ring. }
  change (f x = ReLi 2 1). rewrite <- f0.
  assert (G1 : forall u, u <= 1 -> f u = f 0).
  { intros u Hu. apply (const_except f 0); [intros; apply C|]. intros y Hy N. apply D; [exact N|].
    assert (Rmax u 0 <= 1) by (apply Rmax_lub; lra). lra. }
  destruct (Rle_dec x 1) as [L|L]; [apply G1; exact L|].
  rewrite <- (G1 1) by lra. apply (const_except f 1); [intros; apply C|]. intros y Hy N. apply D; [|exact N].
  assert (1 <= Rmin x 1) by (apply Rmin_glb; lra). lra.
Qed.

(** ** Landen: Li2(1-x) + Li2(1-1/x) = -1/2 log^2 x for x > 0 *)
Lemma inv_continuous x : x <> 0 -> continuous (fun x => / x) x.
Proof. intros H. apply (ex_derive_continuous (fun x => / x)). auto_derive. exact H. Qed.
Lemma oneminv_continuous x : x <> 0 -> continuous (fun x => 1 - / x) x.
Proof. intros H. apply (ex_derive_continuous (fun x => 1 - / x)). auto_derive. exact H. Qed.
Lemma inv_neq1 x : x <> 0 -> x <> 1 -> / x <> 1.
Proof. intros H K E. apply K. rewrite <- (Rinv_inv x), E. field. Qed.

Theorem Li2_landen x : 0 < x -> ReLi 2 (1 - x) + ReLi 2 (1 - / x) = - (/2) * (ln x * ln x).
Proof.
  intros Hx. set (f := fun x => ReLi 2 (1 - x) + ReLi 2 (1 - / x) + /2 * (ln x * ln x)).
  enough (E : f x = f 1).
  { unfold f in E at 2. replace (1 - 1) with 0 in E by ring. replace (1 - / 1) with 0 in E by field. rewrite !ReLi_0, ln_1 in E by lia. unfold f in E. lra. }
  apply (const_except f 1).
  - intros y Hy. assert (0 < Rmin x 1) by (apply Rmin_glb_lt; lra).
    apply (continuous_plus (fun x => ReLi 2 (1 - x) + ReLi 2 (1 - / x)) (fun x => /2 * (ln x * ln x))).
    + apply (continuous_plus (fun x => ReLi 2 (1 - x)) (fun x => ReLi 2 (1 - / x))); apply ReLi_comp_continuous; auto; [apply oneminus_continuous|apply oneminv_continuous; lra].
    + apply (ex_derive_continuous (fun x => /2 * (ln x * ln x))). auto_derive. repeat split; lra.
  - intros y Hy N. assert (0 < Rmin x 1) by (apply Rmin_glb_lt; lra).
    replace 0 with (-1 * (ReLi 1 (1 - y) / (1 - y)) + / (y * y) * (ReLi 1 (1 - / y) / (1 - / y)) + ln y / y).
    + apply (is_derive_plus (fun x => ReLi 2 (1 - x) + ReLi 2 (1 - / x)) (fun x => /2 * (ln x * ln x))).
      * apply (is_derive_plus (fun x => ReLi 2 (1 - x)) (fun x => ReLi 2 (1 - / x))).
        -- apply (ReLi_comp_derive 1 (fun x => 1 - x)); try lra; [lia|]. auto_derive; [trivial|ring].
        -- apply (ReLi_comp_derive 1 (fun x => 1 - / x)).
           ++ lia.
           ++ pose proof (inv_neq1 y ltac:(lra) N). lra.
           ++ assert (/ y <> 0) by (apply Rinv_neq_0_compat; lra). lra.
           ++ auto_derive; [lra|]. field. lra.
      * auto_derive; [repeat split; lra|]. field. lra.
    + cbn [ReLi]. replace (1 - (1 - y)) with y by ring. replace (1 - (1 - / y)) with (/ y) by ring.
      rewrite lnabs_inv by lra. rewrite Rabs_pos_eq by lra. field. repeat split; lra.
Qed.

(** ** Inversion.  Li_n(x) +- Li_n(1/x) on a half line is determined by its value at +-1 *)
Lemma is_derive_mul_c (c : R) f x d : is_derive f x d -> is_derive (fun x => c * f x) x (c * d).
Proof. intros D. apply (is_derive_scal f x c d D). Qed.
Lemma lnabs_pow_derive x : x <> 0 -> is_derive (fun t => ln (Rabs t) * ln (Rabs t)) x (2 * ln (Rabs x) / x).
Proof.
  intros H. replace (2 * ln (Rabs x) / x) with (/ x * ln (Rabs x) + ln (Rabs x) * / x) by (field; exact H).
  apply (is_derive_mult (fun x => ln (Rabs x)) (fun x => ln (Rabs x))); try (apply is_derive_lnabs; exact H). intros; apply Rmult_comm.
Qed.
Lemma lnabs_comp_derive (g : R -> R) g' x : x <> 0 -> is_derive g (ln (Rabs x)) g' -> is_derive (fun t => g (ln (Rabs t))) x (g' / x).
Proof.
  intros H D. replace (g' / x) with (/ x * g') by (unfold Rdiv; ring).
  apply (is_derive_comp g (fun t => ln (Rabs t))); [exact D|apply is_derive_lnabs; exact H].
Qed.
Lemma lnabs_comp_continuous (g : R -> R) x : x <> 0 -> (forall y, continuous g y) -> continuous (fun t => g (ln (Rabs t))) x.
Proof.
  intros H C. apply (continuous_comp (fun t => ln (Rabs t)) g); [|apply C].
  apply (ex_derive_continuous (fun t => ln (Rabs t))). eexists. apply is_derive_lnabs. exact H.
Qed.
(** the step common to all orders: if L_n(x) - s L_n(1/x) = g(log|x|) with g' = ... *)
Lemma inversion_step n s (g G : R -> R) p : (1 <= n)%nat -> p = 1 \/ p = -1 ->
  (forall x, 0 < x * p -> x <> 1 -> ReLi n x - s * ReLi n (/ x) = g (ln (Rabs x))) ->
  (forall y, is_derive G y (g y)) -> ReLi (S n) p + s * ReLi (S n) (/ p) = G 0 ->
  forall x, 0 < x * p -> ReLi (S n) x + s * ReLi (S n) (/ x) = G (ln (Rabs x)).
Proof.
  intros Hn Hp H D E x Hx.
  set (f := fun x => ReLi (S n) x + s * ReLi (S n) (/ x) - G (ln (Rabs x))).
  assert (NZ : forall y, Rmin x p <= y <= Rmax x p -> 0 < y * p).
  { intros y Hy. destruct Hp as [->| ->].
    - assert (0 < Rmin x 1) by (apply Rmin_glb_lt; lra). lra.
    - assert (Rmax x (-1) < 0) by (apply Rmax_lub_lt; lra). lra. }
  enough (K : f x = f p).
  { unfold f in K. assert (LP : ln (Rabs p) = 0) by (destruct Hp as [->| ->]; [|replace (-1) with (- (1)) by ring; rewrite lnabs_opp]; apply lnabs_1).
    rewrite LP in K. lra. }
  apply (const_except f 1).
  - intros y Hy. apply NZ in Hy. assert (y <> 0) by (intros ->; lra).
    apply (continuous_minus (fun x => ReLi (S n) x + s * ReLi (S n) (/ x)) (fun x => G (ln (Rabs x)))).
    + apply (continuous_plus (ReLi (S n)) (fun x => s * ReLi (S n) (/ x))); [apply ReLi_props; lia|].
      apply (continuous_mult (fun _ => s) (fun x => ReLi (S n) (/ x))); [apply continuous_const|].
      apply ReLi_comp_continuous; [lia|]. apply inv_continuous. assumption.
    + apply lnabs_comp_continuous; [assumption|]. intros z. apply (ex_derive_continuous G). eexists. apply D.
  - intros y Hy N. assert (P : 0 < y * p) by (apply NZ; lra). assert (Y0 : y <> 0) by (intros ->; lra).
    replace 0 with ((ReLi n y / y + s * (- / (y * y) * (ReLi n (/ y) / / y))) - g (ln (Rabs y)) / y).
    + apply (is_derive_minus (fun x => ReLi (S n) x + s * ReLi (S n) (/ x)) (fun x => G (ln (Rabs x)))).
      * apply (is_derive_plus (ReLi (S n)) (fun x => s * ReLi (S n) (/ x))); [apply ReLi_derive_n0; auto|].
        apply is_derive_mul_c. apply (ReLi_comp_derive n (fun x => / x)); auto.
        -- apply Rinv_neq_0_compat. exact Y0.
        -- apply inv_neq1; auto.
        -- auto_derive; [exact Y0|]. field. exact Y0.
      * apply lnabs_comp_derive; [exact Y0|apply D].
    + rewrite <- H by auto. field. exact Y0.
Qed.

Lemma ReLi_1_inv x : x <> 0 -> x <> 1 -> ReLi 1 x - 1 * ReLi 1 (/ x) = - ln (Rabs x).
Proof.
  intros H K. cbn [ReLi]. assert (E : 1 - / x = - ((1 - x) * / x)) by (field; exact H).
  rewrite E, lnabs_opp, lnabs_mul, lnabs_inv; auto; try lra. apply Rinv_neq_0_compat. exact H.
Qed.
Theorem Li2_inversion p x : p = 1 \/ p = -1 -> 0 < x * p -> ReLi 2 x + ReLi 2 (/ x) = 2 * ReLi 2 p - (ln (Rabs x)) ^ 2 / 2.
Proof.
  intros Hp Hx. rewrite <- (Rmult_1_l (ReLi 2 (/ x))).
  apply (inversion_step 1 1 (fun y => - y) (fun y => 2 * ReLi 2 p - y ^ 2 / 2) p); auto.
  - intros y Hy N. apply ReLi_1_inv; [intros ->; lra|exact N].
  - intros y. auto_derive; [trivial|]. field.
  - replace (/ p) with p by (destruct Hp as [->| ->]; field). cbn [pow]. field.
Qed.
Theorem Li3_inversion p x : p = 1 \/ p = -1 -> 0 < x * p ->
  ReLi 3 x - ReLi 3 (/ x) = 2 * ReLi 2 p * ln (Rabs x) - (ln (Rabs x)) ^ 3 / 6.
Proof.
  intros Hp Hx. replace (ReLi 3 x - ReLi 3 (/ x)) with (ReLi 3 x + -1 * ReLi 3 (/ x)) by ring.
  apply (inversion_step 2 (-1) (fun y => 2 * ReLi 2 p - y ^ 2 / 2) (fun y => 2 * ReLi 2 p * y - y ^ 3 / 6) p); auto.
  - intros y Hy N. rewrite <- (Li2_inversion p y Hp Hy). ring.
  - intros y. generalize (ReLi 2 p) (ReLi 4 p). intros c d. auto_derive; [trivial|]. field.
  - replace (/ p) with p by (destruct Hp as [->| ->]; field). cbn [pow]. field.
Qed.
Theorem Li4_inversion p x : p = 1 \/ p = -1 -> 0 < x * p ->
  ReLi 4 x + ReLi 4 (/ x) = 2 * ReLi 4 p + ReLi 2 p * (ln (Rabs x)) ^ 2 - (ln (Rabs x)) ^ 4 / 24.
Proof.
  intros Hp Hx. rewrite <- (Rmult_1_l (ReLi 4 (/ x))).
  apply (inversion_step 3 1 (fun y => 2 * ReLi 2 p * y - y ^ 3 / 6) (fun y => 2 * ReLi 4 p + ReLi 2 p * y ^ 2 - y ^ 4 / 24) p); auto.
  - intros y Hy N. rewrite <- (Li3_inversion p y Hp Hy). ring.
  - intros y. generalize (ReLi 2 p) (ReLi 4 p). intros c d. auto_derive; [trivial|]. field.
  - replace (/ p) with p by (destruct Hp as [->| ->]; field). cbn [pow]. field.
Qed.

(** ** Duplication: Li_n(x) + Li_n(-x) = 2^(1-n) Li_n(x^2), n >= 1, for every real x (x^2 <> 1 if n = 1) *)
Theorem ReLi_duplication n x : (1 <= n)%nat -> (2 <= n)%nat \/ x * x <> 1 ->
  2 ^ n * (ReLi n x + ReLi n (- x)) = 2 * ReLi n (x * x).
Proof.
  destruct n as [|n]; [intros H; inversion H|]. intros _. revert x. induction n as [|n IH]; intros x Hx.
  - destruct Hx as [Hx|Hx]; [lia|]. cbn [ReLi]. replace (1 - x * x) with ((1 - x) * (1 - - x)) by ring.
    rewrite lnabs_mul by (intros E; apply Hx; nra). ring.
  - clear Hx.
    set (f := fun x => 2 ^ S (S n) * (ReLi (S (S n)) x + ReLi (S (S n)) (- x)) - 2 * ReLi (S (S n)) (x * x)).
    assert (C : forall x, continuous f x).
    { intros y. apply (continuous_minus (fun x => 2 ^ S (S n) * (ReLi (S (S n)) x + ReLi (S (S n)) (- x))) (fun x => 2 * ReLi (S (S n)) (x * x))).
      - apply (continuous_mult (fun _ => 2 ^ S (S n)) (fun x => ReLi (S (S n)) x + ReLi (S (S n)) (- x))); [apply continuous_const|].
        apply (continuous_plus (ReLi (S (S n))) (fun x => ReLi (S (S n)) (- x))); [apply ReLi_props; lia|].
        apply (ReLi_comp_continuous (S (S n)) (fun x => - x)); [lia|]. apply (ex_derive_continuous (fun x => - x)). auto_derive. trivial.
      - apply (continuous_mult (fun _ => 2) (fun x => ReLi (S (S n)) (x * x))); [apply continuous_const|].
        apply (ReLi_comp_continuous (S (S n)) (fun x => x * x)); [lia|]. apply (ex_derive_continuous (fun x => x * x)). auto_derive. trivial. }
    assert (D : forall x, x <> 0 -> x * x <> 1 -> is_derive f x 0).
    { intros y H0 H1. 
      replace 0 with (2 ^ S (S n) * (ReLi (S n) y / y + -1 * (ReLi (S n) (- y) / - y)) - 2 * ((2 * y) * (ReLi (S n) (y * y) / (y * y)))).
      - apply (is_derive_minus (fun x => 2 ^ S (S n) * (ReLi (S (S n)) x + ReLi (S (S n)) (- x))) (fun x => 2 * ReLi (S (S n)) (x * x))).
        + apply is_derive_mul_c. apply (is_derive_plus (ReLi (S (S n))) (fun x => ReLi (S (S n)) (- x))).
          * apply ReLi_derive_n0; [lia|exact H0|]. left. intros ->. apply H1. ring.
          * apply (ReLi_comp_derive (S n) (fun x => - x)); [lia|lra| |auto_derive; [trivial|ring]].
            intros E. apply H1. replace y with (-1) by lra. ring.
        + apply is_derive_mul_c. apply (ReLi_comp_derive (S n) (fun x => x * x)); [lia| |exact H1|auto_derive; [trivial|ring]].
          intros E. apply H0. nra.
      - specialize (IH y (or_intror H1)). change (2 ^ S (S n)) with (2 * 2 ^ S n).
        replace (2 * 2 ^ S n * (ReLi (S n) y / y + -1 * (ReLi (S n) (- y) / - y))) with (2 * (2 ^ S n * (ReLi (S n) y + ReLi (S n) (- y))) / y) by (field; lra).
        rewrite IH. field. exact H0. }
    assert (f0 : f 0 = 0). { unfold f. rewrite Ropp_0, Rmult_0_l, !ReLi_0 by lia. ring. }
    enough (E : f x = f 0) by (unfold f in E at 1; lra).
    assert (M : forall u, -1 <= u <= 1 -> f u = f 0).
    { intros u Hu. apply (const_except f 0); [intros; apply C|]. intros y Hy N. apply D; [exact N|].
      assert (-1 <= Rmin u 0) by (apply Rmin_glb; lra). assert (Rmax u 0 <= 1) by (apply Rmax_lub; lra). nra. }
    destruct (Rle_dec (-1) x) as [L1|L1]; [destruct (Rle_dec x 1) as [L2|L2]|].
    + apply M. lra.
    + rewrite <- (M 1) by lra. apply const_on_closed'; [intros; apply C|]. rewrite Rmin_right, Rmax_left by lra. intros y Hy. apply D; nra.
    + rewrite <- (M (-1)) by lra. apply const_on_closed'; [intros; apply C|]. rewrite Rmin_left, Rmax_right by lra. intros y Hy. apply D; nra.
Qed.
Corollary ReLi_at_m1 n : (2 <= n)%nat -> 2 ^ n * ReLi n (-1) = (2 - 2 ^ n) * ReLi n 1.
Proof. intros H. pose proof (ReLi_duplication n 1 ltac:(lia) (or_introl H)) as K. rewrite Rmult_1_r in K. replace (- (1)) with (-1) in K by ring. lra. Qed.
Corollary Li2_m1 : ReLi 2 (-1) = - ReLi 2 1 / 2.
Proof. pose proof (ReLi_at_m1 2 ltac:(lia)). lra. Qed.
Corollary Li3_m1 : ReLi 3 (-1) = - (3 * ReLi 3 1 / 4).
Proof. pose proof (ReLi_at_m1 3 ltac:(lia)). lra. Qed.
Corollary Li4_m1 : ReLi 4 (-1) = - (7 * ReLi 4 1 / 8).
Proof. pose proof (ReLi_at_m1 4 ltac:(lia)). lra. Qed.

(** ** the three-term relation of Li3, for every x > 0 *)
Theorem Li3_three x : 0 < x ->
  ReLi 3 x + ReLi 3 (1 - x) + ReLi 3 (1 - / x) =
  ReLi 3 1 + (ln x) ^ 3 / 6 + ReLi 2 1 * ln x - / 2 * (ln x) ^ 2 * ln (Rabs (1 - x)).
Proof.
  intros Hx.
  set (f := fun x => ReLi 3 x + ReLi 3 (1 - x) + ReLi 3 (1 - / x) + (/2 * ln (Rabs x) * psi x - ((ln (Rabs x)) ^ 3 / 6 + ReLi 2 1 * ln (Rabs x)))).
  enough (E : f x = f 1).
  { unfold f, psi in E. rewrite lnabs_1 in E. replace (1 - 1) with 0 in E by ring. replace (1 - / 1) with 0 in E by field. rewrite !(ReLi_0 3) in E by lia.
    rewrite (Rabs_pos_eq x) in E by lra. lra. }
  assert (P : 0 < Rmin x 1) by (apply Rmin_glb_lt; lra).
  apply (const_except f 1).
  - intros y Hy. assert (Y0 : y <> 0) by lra.
    assert (LC : continuous (fun t => ln (Rabs t)) y). { apply (ex_derive_continuous (fun t => ln (Rabs t))). eexists. apply is_derive_lnabs. exact Y0. }
    apply (continuous_plus (fun x => ReLi 3 x + ReLi 3 (1 - x) + ReLi 3 (1 - / x)) (fun x => /2 * ln (Rabs x) * psi x - ((ln (Rabs x)) ^ 3 / 6 + ReLi 2 1 * ln (Rabs x)))).
    + apply (continuous_plus (fun x => ReLi 3 x + ReLi 3 (1 - x)) (fun x => ReLi 3 (1 - / x))).
      * apply (continuous_plus (ReLi 3) (fun x => ReLi 3 (1 - x))); [apply ReLi_props; lia|]. apply ReLi_comp_continuous; [lia|apply oneminus_continuous].
      * apply ReLi_comp_continuous; [lia|apply oneminv_continuous; exact Y0].
    + apply (continuous_minus (fun x => /2 * ln (Rabs x) * psi x) (fun x => (ln (Rabs x)) ^ 3 / 6 + ReLi 2 1 * ln (Rabs x))).
      * apply (continuous_mult (fun x => /2 * ln (Rabs x)) psi); [|apply psi_continuous].
        apply (continuous_mult (fun _ => /2) (fun x => ln (Rabs x))); [apply continuous_const|exact LC].
      * apply (lnabs_comp_continuous (fun u => u ^ 3 / 6 + ReLi 2 1 * u)); [exact Y0|].
        intros z. generalize (ReLi 2 1). intros c. apply (ex_derive_continuous (fun u => u ^ 3 / 6 + c * u)). auto_derive. trivial.
  - intros y Hy N. assert (Y0 : 0 < y) by lra. pose proof (Rinv_0_lt_compat y Y0) as Yi.
    pose proof (inv_neq1 y ltac:(lra) N) as Yi1.
    set (l := ln y). set (m := ln (Rabs (1 - y))).
    replace 0 with (ReLi 2 y / y + -1 * (ReLi 2 (1 - y) / (1 - y)) + / (y * y) * (ReLi 2 (1 - / y) / (1 - / y))
       + ((/ 2 * / y * (l * m) + /2 * l * (/ y * m + l * / (y - 1))) - (l ^ 2 / 2 + ReLi 2 1) / y)).
    + apply (is_derive_plus (fun x => ReLi 3 x + ReLi 3 (1 - x) + ReLi 3 (1 - / x)) (fun x => /2 * ln (Rabs x) * psi x - ((ln (Rabs x)) ^ 3 / 6 + ReLi 2 1 * ln (Rabs x)))).
      * apply (is_derive_plus (fun x => ReLi 3 x + ReLi 3 (1 - x)) (fun x => ReLi 3 (1 - / x))).
        -- apply (is_derive_plus (ReLi 3) (fun x => ReLi 3 (1 - x))); [apply ReLi_derive_n0; auto; lra|].
           apply (ReLi_comp_derive 2 (fun x => 1 - x)); try lra; [lia|]. auto_derive; [trivial|ring].
        -- apply (ReLi_comp_derive 2 (fun x => 1 - / x)); try lra; [lia|]. auto_derive; [lra|]. field. lra.
      * apply (is_derive_minus (fun x => /2 * ln (Rabs x) * psi x) (fun x => (ln (Rabs x)) ^ 3 / 6 + ReLi 2 1 * ln (Rabs x))).
        -- assert (EP : psi y = l * m) by (unfold psi, l, m; rewrite (Rabs_pos_eq y) by lra; reflexivity). rewrite <- EP.
           assert (EL : l = ln (Rabs y)) by (unfold l; rewrite Rabs_pos_eq by lra; reflexivity). rewrite EL.
           apply (is_derive_mult (fun x => /2 * ln (Rabs x)) psi); [|apply psi_derive; lra|intros; apply Rmult_comm].
           apply is_derive_mul_c. apply is_derive_lnabs. lra.
        -- replace l with (ln (Rabs y)) by (unfold l; rewrite Rabs_pos_eq by lra; reflexivity).
           apply (lnabs_comp_derive (fun u => u ^ 3 / 6 + ReLi 2 1 * u)); [lra|]. generalize (ReLi 2 1). intros c. auto_derive; [trivial|]. field.
    + pose proof (Li2_landen y Y0) as LD. fold l in LD.
      pose proof (Li2_reflection y) as RF. rewrite (Rabs_pos_eq y) in RF by lra. fold l in RF. fold m in RF.
      replace (ReLi 2 (1 - / y)) with (- / 2 * (l * l) - ReLi 2 (1 - y)) by lra.
      replace (ReLi 2 y) with (ReLi 2 1 - l * m - ReLi 2 (1 - y)) by lra.
      field. repeat split; lra.
Qed.
