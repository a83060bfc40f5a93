(** * Trigonometric series: sum sin(kx)/k^n and sum cos(kx)/k^n

    The Clausen and Glaisher-Clausen functions are these series.  Proved here:
    the sums for n = 1, termwise differentiation, continuity, and the even zeta
    values 2 and 4.  Nothing here mentions the code. *)
From Coq Require Import Reals Lra Lia Psatz ZArith.
From Coquelicot Require Import Coquelicot.
From Verif Require Import Polylog Polylog_series.
Local Open Scope R_scope.

Definition sterm (n : nat) (x : R) (k : nat) : R := sin (INR (S k) * x) / INR (S k) ^ n.
Definition cterm (n : nat) (x : R) (k : nat) : R := cos (INR (S k) * x) / INR (S k) ^ n.
(** partial sums of K+1 terms *)
Definition psin (n K : nat) (x : R) : R := sum_f_R0 (sterm n x) K.
Definition pcos (n K : nat) (x : R) : R := sum_f_R0 (cterm n x) K.

Lemma INR_S_pos k : 0 < INR (S k).
Proof. apply lt_0_INR. lia. Qed.
Lemma psin_derive n K x : is_derive (psin (S n) K) x (pcos n K x).
Proof.
  unfold psin, pcos. induction K as [|K IH].
  - cbn [sum_f_R0]. unfold sterm, cterm. pose proof (INR_S_pos 0). assert (INR 1 ^ n <> 0) by (apply pow_nonzero; lra).
    change (INR 1 ^ S n) with (INR 1 * INR 1 ^ n). generalize dependent (INR 1 ^ n). generalize dependent (INR 1). intros p Hp q Hq. auto_derive; [trivial|]. field. split; lra.
  - cbn [sum_f_R0]. apply (is_derive_plus (fun x => sum_f_R0 (sterm (S n) x) K) (fun x => sterm (S n) x (S K))); [exact IH|].
    unfold sterm, cterm. pose proof (INR_S_pos (S K)). assert (INR (S (S K)) ^ n <> 0) by (apply pow_nonzero; lra).
    change (INR (S (S K)) ^ S n) with (INR (S (S K)) * INR (S (S K)) ^ n). generalize dependent (INR (S (S K)) ^ n). generalize dependent (INR (S (S K))). intros p Hp q Hq. auto_derive; [trivial|]. field. split; lra.
Qed.
Lemma pcos_derive n K x : is_derive (pcos (S n) K) x (- psin n K x).
Proof.
  unfold psin, pcos. induction K as [|K IH].
  - cbn [sum_f_R0]. unfold sterm, cterm. pose proof (INR_S_pos 0). assert (INR 1 ^ n <> 0) by (apply pow_nonzero; lra).
    change (INR 1 ^ S n) with (INR 1 * INR 1 ^ n). generalize dependent (INR 1 ^ n). generalize dependent (INR 1). intros p Hp q Hq. auto_derive; [trivial|]. field. split; lra.
  - cbn [sum_f_R0]. rewrite Ropp_plus_distr. apply (is_derive_plus (fun x => sum_f_R0 (cterm (S n) x) K) (fun x => cterm (S n) x (S K))); [exact IH|].
    unfold sterm, cterm. pose proof (INR_S_pos (S K)). assert (INR (S (S K)) ^ n <> 0) by (apply pow_nonzero; lra).
    change (INR (S (S K)) ^ S n) with (INR (S (S K)) * INR (S (S K)) ^ n). generalize dependent (INR (S (S K)) ^ n). generalize dependent (INR (S (S K))). intros p Hp q Hq. auto_derive; [trivial|]. field. split; lra.
Qed.
Lemma psin_continuous n K x : continuous (psin (S n) K) x.
Proof. apply (ex_derive_continuous (psin (S n) K)). eexists. apply psin_derive. Qed.
Lemma pcos_continuous n K x : continuous (pcos (S n) K) x.
Proof. apply (ex_derive_continuous (pcos (S n) K)). eexists. apply pcos_derive. Qed.

(** ** Dirichlet kernels *)
Lemma sum_cos_closed K x : 2 * sin (x / 2) * pcos 0 K x = sin ((INR (S K) + /2) * x) - sin (x / 2).
Proof.
  unfold pcos. induction K as [|K IH].
  - cbn [sum_f_R0]. unfold cterm. cbn [pow]. change (INR 1) with 1. replace ((1 + / 2) * x) with (1 * x + x / 2) by field.
    rewrite sin_plus. replace (sin (x / 2)) with (sin (1 * x - x / 2)) at 3 by (f_equal; field). rewrite sin_minus. field.
  - cbn [sum_f_R0]. rewrite Rmult_plus_distr_l, IH. unfold cterm. cbn [pow].
    rewrite (S_INR (S K)). set (m := INR (S K)).
    replace ((m + / 2) * x) with ((m + 1) * x - x / 2) by field. replace ((m + 1 + / 2) * x) with ((m + 1) * x + x / 2) by field.
    rewrite sin_plus, sin_minus. field.
Qed.
Lemma sum_sin_closed K x : 2 * sin (x / 2) * psin 0 K x = cos (x / 2) - cos ((INR (S K) + /2) * x).
Proof.
  unfold psin. induction K as [|K IH].
  - cbn [sum_f_R0]. unfold sterm. cbn [pow]. change (INR 1) with 1. replace ((1 + / 2) * x) with (1 * x + x / 2) by field.
    rewrite cos_plus. replace (cos (x / 2)) with (cos (1 * x - x / 2)) at 1 by (f_equal; field). rewrite cos_minus. field.
  - cbn [sum_f_R0]. rewrite Rmult_plus_distr_l, IH. unfold sterm. cbn [pow].
    rewrite (S_INR (S K)). set (m := INR (S K)).
    replace ((m + / 2) * x) with ((m + 1) * x - x / 2) by field. replace ((m + 1 + / 2) * x) with ((m + 1) * x + x / 2) by field.
    rewrite cos_plus, cos_minus. field.
Qed.

Lemma sin_half_lower a x : 0 < a -> a <= x <= 2 * PI - a -> sin (a / 2) <= sin (x / 2).
Proof.
  intros Ha Hx. destruct (Rle_dec x PI) as [L|L].
  - apply sin_incr_1; lra.
  - rewrite <- (sin_PI_x (x / 2)). apply sin_incr_1; lra.
Qed.
Lemma sin_half_pos a : 0 < a -> a < 2 * PI -> 0 < sin (a / 2).
Proof. intros H K. apply sin_gt_0; lra. Qed.

(** comparison of a function with 0 through its derivative, based at p *)
Lemma deriv_bound_at (f f' : R -> R) e p x :
  (forall t, Rmin p x <= t <= Rmax p x -> is_derive f t (f' t)) ->
  (forall t, Rmin p x <= t <= Rmax p x -> Rabs (f' t) <= e) -> Rabs (f x - f p) <= e * Rabs (x - p).
Proof.
  intros D B.
  destruct (MVT_gen f p x f') as (c & Hc & E).
  - intros t Ht. apply D. lra.
  - intros t Ht. apply continuity_pt_filterlim. apply (ex_derive_continuous f). eexists. apply D. exact Ht.
  - rewrite E, Rabs_mult. apply Rmult_le_compat_r; [apply Rabs_pos|]. apply B. exact Hc.
Qed.

(** alternating harmonic series *)
Lemma sum_geom_alt K x : (1 + x) * sum_f_R0 (fun k => (-1) ^ S k * x ^ k) K = (-1) ^ S K * x ^ S K - 1.
Proof.
  induction K as [|K IH]; [cbn; ring|]. rewrite tech5, Rmult_plus_distr_l, IH. cbn [pow]. ring.
Qed.
Lemma alt_derive K x : is_derive (fun x => sum_f_R0 (fun k => (-1) ^ S k * x ^ S k / INR (S k)) K) x (sum_f_R0 (fun k => (-1) ^ S k * x ^ k) K).
Proof.
  induction K as [|K IH].
  - cbn [sum_f_R0]. change (INR 1) with 1. auto_derive; [trivial|]. field.
  - cbn [sum_f_R0].
    apply (is_derive_plus (fun x => sum_f_R0 (fun k => (-1) ^ S k * x ^ S k / INR (S k)) K) (fun x => (-1) ^ S (S K) * x ^ S (S K) / INR (S (S K)))); [exact IH|].
    pose proof (INR_S_pos (S K)) as P. generalize ((-1) ^ S (S K)). intros c.
    auto_derive; [trivial|]. 
    change (Init.Nat.pred (S (S K))) with (S K). change (match K with O => 1 | S _ => INR K + 1 end) with (INR (S K)) in *.
    change (INR (S (S K))) with (INR (S K) + 1) in *. set (m := INR (S K)) in *. clearbody m.
    replace (x ^ S K) with (x * x ^ K) by reflexivity. field. lra.
Qed.
Lemma alt_harmonic K : Rabs (sum_f_R0 (fun k => (-1) ^ S k / INR (S k)) K + ln 2) <= 2 / (2 * INR (S K) + 1).
Proof.
  set (f := fun x => sum_f_R0 (fun k => (-1) ^ S k * x ^ S k / INR (S k)) K + ln (1 + x)).
  assert (D : forall x, 0 <= x <= 1 -> is_derive f x ((-1) ^ S K * x ^ S K / (1 + x))).
  { intros x Hx. replace ((-1) ^ S K * x ^ S K / (1 + x)) with (sum_f_R0 (fun k => (-1) ^ S k * x ^ k) K + / (1 + x)).
    - apply (is_derive_plus (fun x => sum_f_R0 (fun k => (-1) ^ S k * x ^ S k / INR (S k)) K) (fun x => ln (1 + x))); [apply alt_derive|].
      auto_derive; [lra|]. field. lra.
    - pose proof (sum_geom_alt K x) as G. apply (Rmult_eq_reg_l (1 + x)); [|lra]. rewrite Rmult_plus_distr_l, G. field. lra. }
  pose proof (INR_S_pos K) as P. pose proof (INR_S_pos (S K)) as P2.
  set (g := fun x => x ^ S (S K) / INR (S (S K))).
  assert (Dg : forall x, is_derive g x (x ^ S K)).
  { intros x. unfold g. auto_derive; [trivial|]. change (Init.Nat.pred (S (S K))) with (S K).
    change (INR (S (S K))) with (INR (S K) + 1) in *. set (m := INR (S K)) in *. 
    change (match K with O => 1 | S _ => INR K + 1 end) with m. clearbody m. 
    replace (x ^ S K) with (x * x ^ K) by reflexivity. field. lra. }
  assert (B : Rabs (f 1 - f 0) <= g 1 - g 0).
  { apply (deriv_cmp f g (fun x => (-1) ^ S K * x ^ S K / (1 + x)) (fun x => x ^ S K)); [lra| | | | |].
    - intros x Hx. apply (ex_derive_continuous f). eexists. apply D. lra.
    - intros x Hx. apply (ex_derive_continuous g). eexists. apply Dg.
    - intros x Hx. apply D. lra.
    - intros x Hx. apply Dg.
    - intros x Hx. unfold Rdiv. rewrite !Rabs_mult, pow_1_abs, Rmult_1_l, (Rabs_pos_eq (x ^ S K)) by (apply pow_le; lra).
      rewrite Rabs_pos_eq by (left; apply Rinv_0_lt_compat; lra).
      rewrite <- (Rmult_1_r (x ^ S K)) at 2. apply Rmult_le_compat_l; [apply pow_le; lra|]. rewrite <- Rinv_1. apply Rinv_le_contravar; lra. }
  assert (f0 : f 0 = 0).
  { unfold f. rewrite Rplus_0_r, ln_1. rewrite (sum_eq _ (fun _ => 0)); [rewrite sum_eq_R0; [ring|reflexivity]|].
    intros i _. cbn [pow]. unfold Rdiv. ring. }
  rewrite f0 in B. unfold f in B. rewrite (sum_eq _ (fun k => (-1) ^ S k / INR (S k))) in B by (intros i _; rewrite pow1, Rmult_1_r; reflexivity).
  replace (1 + 1) with 2 in B by ring. rewrite Rminus_0_r in B. eapply Rle_trans; [exact B|]. unfold g. rewrite pow1, pow_ne_zero by lia.
  rewrite (S_INR (S K)). set (m := INR (S K)) in *. 
  replace (1 / (m + 1) - 0 / (m + 1)) with (/ (m + 1)) by (field; lra).
  apply (Rmult_le_reg_r ((m + 1) * (2 * m + 1))); [nra|]. field_simplify; try lra.
Qed.

Definition rate (B : R) (K : nat) : R := B / (2 * INR (S K) + 1).
Lemma cos_odd_half_PI m : cos ((INR m + /2) * PI) = 0.
Proof.
  induction m as [|m IH]; [cbn [INR]; replace ((0 + / 2) * PI) with (PI / 2) by field; apply cos_PI2|].
  rewrite S_INR. replace ((INR m + 1 + / 2) * PI) with ((INR m + / 2) * PI + PI) by ring. rewrite neg_cos, IH. ring.
Qed.
Lemma cos_INR_PI m : cos (INR m * PI) = (-1) ^ m.
Proof.
  induction m as [|m IH]; [cbn [INR pow]; rewrite Rmult_0_l; apply cos_0|].
  rewrite S_INR. replace ((INR m + 1) * PI) with (INR m * PI + PI) by ring. rewrite neg_cos, IH. cbn [pow]. ring.
Qed.
Lemma sin_INR_PI m : sin (INR m * PI) = 0.
Proof.
  induction m as [|m IH]; [cbn [INR]; rewrite Rmult_0_l; apply sin_0|].
  rewrite S_INR. replace ((INR m + 1) * PI) with (INR m * PI + PI) by ring. rewrite neg_sin, IH. ring.
Qed.

Section Order1.
Variables (a : R) (K : nat).
Hypothesis Ha : 0 < a < PI.
Let s0 := sin (a / 2).
Let m := INR (S K).
Let m0 : 1 <= m.
Proof. unfold m. rewrite S_INR. pose proof (pos_INR K). lra. Qed.
Let s0p : 0 < s0 <= 1.
Proof. split; [apply sin_half_pos; lra|apply SIN_bound]. Qed.
Let inside t x : a <= x <= 2 * PI - a -> Rmin PI x <= t <= Rmax PI x -> a <= t <= 2 * PI - a.
Proof.
  intros Hx Ht. assert (a <= Rmin PI x) by (apply Rmin_glb; lra). assert (Rmax PI x <= 2 * PI - a) by (apply Rmax_lub; lra). lra.
Qed.
Let dist x : a <= x <= 2 * PI - a -> Rabs (x - PI) <= 4.
Proof. intros Hx. pose proof PI_4. apply Rabs_le. lra. Qed.

Lemma order1_sin x : a <= x <= 2 * PI - a -> Rabs (psin 1 K x - (PI - x) / 2) <= rate (6 / (s0 * s0)) K.
Proof.
  intros Hx.
  set (G := fun t => psin 1 K t - (PI - t) / 2 + cos ((m + /2) * t) / ((2 * m + 1) * sin (t / 2))).
  set (G' := fun t => - (cos ((m + /2) * t) * cos (t / 2)) / (2 * (2 * m + 1) * (sin (t / 2) * sin (t / 2)))).
  assert (SL : forall t, a <= t <= 2 * PI - a -> s0 <= sin (t / 2)) by (intros t Ht; apply sin_half_lower; lra).
  assert (D : forall t, a <= t <= 2 * PI - a -> is_derive G t (G' t)).
  { intros t Ht. specialize (SL t Ht). 
    replace (G' t) with (pcos 0 K t + (/ 2 + - (m + /2) * sin ((m + / 2) * t) / ((2 * m + 1) * sin (t / 2)) - cos ((m + /2) * t) * (cos (t / 2) / 2) / ((2 * m + 1) * (sin (t / 2) * sin (t / 2))))).
    - apply (is_derive_ext (fun t => psin 1 K t + (- ((PI - t) / 2) + cos ((m + /2) * t) / ((2 * m + 1) * sin (t / 2))))).
      { intros u. change (psin 1 K u + (- ((PI - u) / 2) + cos ((m + /2) * u) / ((2 * m + 1) * sin (u / 2))) = G u :> R). unfold G. ring. }
      apply (is_derive_plus (psin 1 K) (fun t => - ((PI - t) / 2) + cos ((m + /2) * t) / ((2 * m + 1) * sin (t / 2)))); [apply psin_derive|].
      clearbody m. unfold Rdiv in SL. auto_derive; [|unfold Rdiv; field; lra]. intros E. apply Rmult_integral in E. lra.
    - pose proof (sum_cos_closed K t) as C. fold m in C.
      assert (C' : pcos 0 K t = (sin ((m + / 2) * t) - sin (t / 2)) / (2 * sin (t / 2))) by (rewrite <- C; field; lra).
      rewrite C'. unfold G'. field. lra. }
  assert (B : forall t, a <= t <= 2 * PI - a -> Rabs (G' t) <= / (2 * (2 * m + 1) * (s0 * s0))).
  { intros t Ht. specialize (SL t Ht). unfold G'. unfold Rdiv. rewrite Rabs_mult, Rabs_Ropp.
    rewrite (Rabs_pos_eq (/ _)) by (left; apply Rinv_0_lt_compat; nra).
    rewrite <- (Rmult_1_l (/ (2 * (2 * m + 1) * (s0 * s0)))). apply Rmult_le_compat.
    - apply Rabs_pos.
    - left; apply Rinv_0_lt_compat; nra.
    - rewrite Rabs_mult. rewrite <- (Rmult_1_l 1). apply Rmult_le_compat; try apply Rabs_pos; apply Rabs_le; apply COS_bound.
    - apply Rinv_le_contravar; [nra|]. apply Rmult_le_compat_l; nra. }
  assert (G0 : G PI = 0).
  { unfold G. unfold m at 1. rewrite cos_odd_half_PI. unfold psin. rewrite sum_eq_R0; [lra|].
    intros n _. unfold sterm. rewrite sin_INR_PI. unfold Rdiv. ring. }
  assert (BG : Rabs (G x) <= / (2 * (2 * m + 1) * (s0 * s0)) * 4).
  { replace (G x) with (G x - G PI) by lra. eapply Rle_trans; [apply (deriv_bound_at G G' (/ (2 * (2 * m + 1) * (s0 * s0))) PI x)|].
    - intros t Ht. apply D. eapply inside; eauto.
    - intros t Ht. apply B. eapply inside; eauto.
    - apply Rmult_le_compat_l; [left; apply Rinv_0_lt_compat; nra|]. apply dist. exact Hx. }
  assert (BC : Rabs (cos ((m + /2) * x) / ((2 * m + 1) * sin (x / 2))) <= / ((2 * m + 1) * (s0 * s0))).
  { specialize (SL x Hx). unfold Rdiv at 1. rewrite Rabs_mult. rewrite (Rabs_pos_eq (/ _)) by (left; apply Rinv_0_lt_compat; nra).
    rewrite <- (Rmult_1_l (/ ((2 * m + 1) * (s0 * s0)))). apply Rmult_le_compat.
    - apply Rabs_pos.
    - left; apply Rinv_0_lt_compat; nra.
    - apply Rabs_le; apply COS_bound.
    - apply Rinv_le_contravar; [nra|]. apply Rmult_le_compat_l; nra. }
  replace (psin 1 K x - (PI - x) / 2) with (G x - cos ((m + /2) * x) / ((2 * m + 1) * sin (x / 2))) by (unfold G; ring).
  eapply Rle_trans; [apply Rabs_triang|]. rewrite Rabs_Ropp. unfold rate. fold m.
  apply Rle_trans with (/ (2 * (2 * m + 1) * (s0 * s0)) * 4 + / ((2 * m + 1) * (s0 * s0))); [lra|].
  replace (/ (2 * (2 * m + 1) * (s0 * s0)) * 4 + / ((2 * m + 1) * (s0 * s0))) with (3 / (s0 * s0) / (2 * m + 1)) by (field; lra).
  apply Rmult_le_compat_r; [left; apply Rinv_0_lt_compat; lra|]. apply Rmult_le_compat_r; [left; apply Rinv_0_lt_compat; nra|lra].
Qed.

Lemma order1_cos x : a <= x <= 2 * PI - a -> Rabs (pcos 1 K x - - ln (2 * sin (x / 2))) <= rate (6 / (s0 * s0)) K.
Proof.
  intros Hx.
  set (G := fun t => pcos 1 K t + ln (2 * sin (t / 2)) - sin ((m + /2) * t) / ((2 * m + 1) * sin (t / 2))).
  set (G' := fun t => (sin ((m + /2) * t) * cos (t / 2)) / (2 * (2 * m + 1) * (sin (t / 2) * sin (t / 2)))).
  assert (SL : forall t, a <= t <= 2 * PI - a -> s0 <= sin (t / 2)) by (intros t Ht; apply sin_half_lower; lra).
  assert (D : forall t, a <= t <= 2 * PI - a -> is_derive G t (G' t)).
  { intros t Ht. specialize (SL t Ht). 
    replace (G' t) with (- psin 0 K t + (cos (t / 2) / (2 * sin (t / 2)) - (m + /2) * cos ((m + / 2) * t) / ((2 * m + 1) * sin (t / 2)) + sin ((m + /2) * t) * (cos (t / 2) / 2) / ((2 * m + 1) * (sin (t / 2) * sin (t / 2))))).
    - apply (is_derive_ext (fun t => pcos 1 K t + (ln (2 * sin (t / 2)) - sin ((m + /2) * t) / ((2 * m + 1) * sin (t / 2))))).
      { intros u. change (pcos 1 K u + (ln (2 * sin (u / 2)) - sin ((m + /2) * u) / ((2 * m + 1) * sin (u / 2))) = G u :> R). unfold G. ring. }
      apply (is_derive_plus (pcos 1 K) (fun t => ln (2 * sin (t / 2)) - sin ((m + /2) * t) / ((2 * m + 1) * sin (t / 2)))); [apply pcos_derive|].
      clearbody m. unfold Rdiv in SL. auto_derive; [|unfold Rdiv; field; lra]. split; [lra|]. split; [|trivial]. intros E. apply Rmult_integral in E. lra.
    - pose proof (sum_sin_closed K t) as C. fold m in C.
      assert (C' : psin 0 K t = (cos (t / 2) - cos ((m + / 2) * t)) / (2 * sin (t / 2))) by (rewrite <- C; field; lra).
      rewrite C'. unfold G'. field. lra. }
  assert (B : forall t, a <= t <= 2 * PI - a -> Rabs (G' t) <= / (2 * (2 * m + 1) * (s0 * s0))).
  { intros t Ht. specialize (SL t Ht). unfold G'. unfold Rdiv. rewrite Rabs_mult.
    rewrite (Rabs_pos_eq (/ _)) by (left; apply Rinv_0_lt_compat; nra).
    rewrite <- (Rmult_1_l (/ (2 * (2 * m + 1) * (s0 * s0)))). apply Rmult_le_compat.
    - apply Rabs_pos.
    - left; apply Rinv_0_lt_compat; nra.
    - rewrite Rabs_mult. rewrite <- (Rmult_1_l 1). apply Rmult_le_compat; try apply Rabs_pos; apply Rabs_le; [apply SIN_bound|apply COS_bound].
    - apply Rinv_le_contravar; [nra|]. apply Rmult_le_compat_l; nra. }
  assert (G0 : Rabs (G PI) <= 3 / (2 * m + 1)).
  { unfold G. rewrite sin_PI2, !Rmult_1_r. unfold pcos.
    rewrite (sum_eq _ (fun k => (-1) ^ S k / INR (S k))) by (intros i _; unfold cterm; rewrite cos_INR_PI, pow_1; reflexivity).
    pose proof (alt_harmonic K) as H. fold m in H.
    assert (Rabs (sin ((m + / 2) * PI) / (2 * m + 1)) <= 1 / (2 * m + 1)).
    { unfold Rdiv. rewrite Rabs_mult, (Rabs_pos_eq (/ _)) by (left; apply Rinv_0_lt_compat; lra). apply Rmult_le_compat_r; [left; apply Rinv_0_lt_compat; lra|]. apply Rabs_le, SIN_bound. }
    eapply Rle_trans; [apply Rabs_triang|]. rewrite Rabs_Ropp. replace (3 / (2 * m + 1)) with (2 / (2 * m + 1) + 1 / (2 * m + 1)) by (field; lra). lra. }
  assert (BG : Rabs (G x - G PI) <= / (2 * (2 * m + 1) * (s0 * s0)) * 4).
  { eapply Rle_trans; [apply (deriv_bound_at G G' (/ (2 * (2 * m + 1) * (s0 * s0))) PI x)|].
    - intros t Ht. apply D. eapply inside; eauto.
    - intros t Ht. apply B. eapply inside; eauto.
    - apply Rmult_le_compat_l; [left; apply Rinv_0_lt_compat; nra|]. apply dist. exact Hx. }
  assert (BC : Rabs (sin ((m + /2) * x) / ((2 * m + 1) * sin (x / 2))) <= / ((2 * m + 1) * (s0 * s0))).
  { specialize (SL x Hx). unfold Rdiv at 1. rewrite Rabs_mult. rewrite (Rabs_pos_eq (/ _)) by (left; apply Rinv_0_lt_compat; nra).
    rewrite <- (Rmult_1_l (/ ((2 * m + 1) * (s0 * s0)))). apply Rmult_le_compat.
    - apply Rabs_pos.
    - left; apply Rinv_0_lt_compat; nra.
    - apply Rabs_le; apply SIN_bound.
    - apply Rinv_le_contravar; [nra|]. apply Rmult_le_compat_l; nra. }
  replace (pcos 1 K x - - ln (2 * sin (x / 2))) with ((G x - G PI) + (G PI + sin ((m + /2) * x) / ((2 * m + 1) * sin (x / 2)))) by (unfold G; ring).
  eapply Rle_trans; [apply Rabs_triang|]. 
  assert (Rabs (G PI + sin ((m + /2) * x) / ((2 * m + 1) * sin (x / 2))) <= 3 / (2 * m + 1) + / ((2 * m + 1) * (s0 * s0))) by (eapply Rle_trans; [apply Rabs_triang|]; lra).
  unfold rate. fold m.
  apply Rle_trans with (/ (2 * (2 * m + 1) * (s0 * s0)) * 4 + (3 / (2 * m + 1) + / ((2 * m + 1) * (s0 * s0)))); [lra|].
  replace (/ (2 * (2 * m + 1) * (s0 * s0)) * 4 + (3 / (2 * m + 1) + / ((2 * m + 1) * (s0 * s0)))) with ((3 / (s0 * s0) + 3) / (2 * m + 1)) by (field; lra).
  apply Rmult_le_compat_r; [left; apply Rinv_0_lt_compat; lra|].
  assert (1 <= / (s0 * s0)). { rewrite <- Rinv_1 at 1. apply Rinv_le_contravar; nra. }
  unfold Rdiv. lra.
Qed.
End Order1.

(** ** Higher orders: uniform convergence, termwise differentiation *)
Lemma rate_lim B : is_lim_seq (rate B) 0.
Proof.
  unfold rate. apply (is_lim_seq_ext (fun K => B * / (2 * INR (S K) + 1))); [reflexivity|].
  replace (Finite 0) with (Rbar_mult B 0) by (cbn; f_equal; ring).
  apply is_lim_seq_scal_l. replace (Finite 0) with (Rbar_inv p_infty) by reflexivity.
  apply (is_lim_seq_inv (fun K => 2 * INR (S K) + 1) p_infty); [|discriminate].
  apply (is_lim_seq_le_p_loc INR); [|apply is_lim_seq_INR].
  exists 0%nat. intros n _. rewrite S_INR. pose proof (pos_INR n). lra.
Qed.
Lemma rate_small B e : 0 < e -> exists K, Rabs (rate B K) < e.
Proof.
  intros He. assert (L := proj1 (is_lim_seq_Reals (rate B) 0) (rate_lim B) e He). destruct L as [N HN].
  exists N. specialize (HN N (Nat.le_refl N)). unfold R_dist in HN. rewrite Rminus_0_r in HN. exact HN.
Qed.
Lemma lim_of_rate (u : nat -> R) l B : (forall K, Rabs (u K - l) <= rate B K) -> is_lim_seq u l.
Proof.
  intros H. apply (is_lim_seq_le_le (fun K => l - rate B K) u (fun K => l + rate B K)).
  - intros K. specialize (H K). apply Rabs_le_between in H. lra.
  - replace (Finite l) with (Rbar_minus l 0) by (cbn; f_equal; ring). apply is_lim_seq_minus'; [apply is_lim_seq_const|apply rate_lim].
  - replace (Finite l) with (Rbar_plus l 0) by (cbn; f_equal; ring). apply is_lim_seq_plus'; [apply is_lim_seq_const|apply rate_lim].
Qed.
Lemma series_of_rate (u : nat -> R) l B : (forall K, Rabs (sum_f_R0 u K - l) <= rate B K) -> is_series u l.
Proof.
  intros H. change (is_lim_seq (sum_n u) l). apply is_lim_seq_ext with (u := fun K => sum_f_R0 u K); [intros K; symmetry; apply sum_n_Reals|].
  apply (lim_of_rate _ l B H).
Qed.
(** sums dominated by 1/k^2 *)
Lemma tail_partial (a : nat -> R) K d : (forall k, Rabs (a k) <= / INR (S k) ^ 2) ->
  Rabs (sum_f_R0 a (K + d) - sum_f_R0 a K) <= / INR (S K) - / INR (S (K + d)).
Proof.
  intros H. induction d as [|d IH].
  - rewrite Nat.add_0_r, !Rminus_eq_0, Rabs_R0. lra.
  - rewrite Nat.add_succ_r. cbn [sum_f_R0]. specialize (H (S (K + d))).
    replace (sum_f_R0 a (K + d) + a (S (K + d)) - sum_f_R0 a K) with ((sum_f_R0 a (K + d) - sum_f_R0 a K) + a (S (K + d))) by ring.
    eapply Rle_trans; [apply Rabs_triang|].
    assert (E : / INR (S (S (K + d))) ^ 2 <= / INR (S (K + d)) - / INR (S (S (K + d)))).
    { rewrite (S_INR (S (K + d))). pose proof (INR_S_pos (K + d)) as P. set (m := INR (S (K + d))) in *.
      replace (/ m - / (m + 1)) with (/ (m * (m + 1))) by (field; lra). apply Rinv_le_contravar; nra. }
    lra.
Qed.
Lemma tail_rate (a : nat -> R) : (forall k, Rabs (a k) <= / INR (S k) ^ 2) ->
  is_series a (Series a) /\ forall K, Rabs (sum_f_R0 a K - Series a) <= rate 3 K.
Proof.
  intros H.
  assert (EX : ex_series a).
  { apply (ex_series_le a (zterm 2)); [|eexists; apply ReLi_at_1; lia]. intros k. exact (H k). }
  split; [apply Series_correct; exact EX|]. intros K.
  assert (L : is_lim_seq (fun d => sum_f_R0 a (K + d)) (Series a)).
  { apply is_lim_seq_ext with (u := fun d => sum_n a (d + K)); [intros d; rewrite sum_n_Reals; f_equal; lia|].
    apply (is_lim_seq_incr_n (sum_n a)). exact (Series_correct a EX). }
  assert (L2 : is_lim_seq (fun d => Rabs (sum_f_R0 a (K + d) - sum_f_R0 a K)) (Rabs (Series a - sum_f_R0 a K))).
  { apply (is_lim_seq_abs (fun d => sum_f_R0 a (K + d) - sum_f_R0 a K) (Series a - sum_f_R0 a K)).
    apply is_lim_seq_minus'; [exact L|apply is_lim_seq_const]. }
  rewrite Rabs_minus_sym.
  assert (B : Rbar_le (Rabs (Series a - sum_f_R0 a K)) (rate 3 K)).
  { apply (is_lim_seq_le (fun d => Rabs (sum_f_R0 a (K + d) - sum_f_R0 a K)) (fun _ => rate 3 K)); [|exact L2|apply is_lim_seq_const].
    intros d. eapply Rle_trans; [apply tail_partial; exact H|]. unfold rate.
    pose proof (INR_S_pos (K + d)) as P. apply Rinv_0_lt_compat in P.
    assert (P1 : 1 <= INR (S K)) by (rewrite S_INR; pose proof (pos_INR K); lra). set (m := INR (S K)) in *.
    assert (/ m <= 3 / (2 * m + 1)). { apply (Rmult_le_reg_r (m * (2 * m + 1))); [nra|]. field_simplify; lra. }
    lra. }
  exact B.
Qed.

Definition sinser (n : nat) (x : R) : R := Series (sterm n x).
Definition cosser (n : nat) (x : R) : R := Series (cterm n x).
Lemma pow_inv_le n k : (2 <= n)%nat -> / INR (S k) ^ n <= / INR (S k) ^ 2.
Proof.
  intros H. assert (P1 : 1 <= INR (S k)) by (rewrite S_INR; pose proof (pos_INR k); lra).
  apply Rinv_le_contravar; [apply pow_lt; lra|]. apply Rle_pow; lra || lia.
Qed.
Lemma sterm_bound n x k : (2 <= n)%nat -> Rabs (sterm n x k) <= / INR (S k) ^ 2.
Proof.
  intros H. eapply Rle_trans; [|apply (pow_inv_le n k H)]. unfold sterm, Rdiv. rewrite Rabs_mult.
  pose proof (pow_lt (INR (S k)) n (INR_S_pos k)) as P. apply Rinv_0_lt_compat in P. rewrite (Rabs_pos_eq (/ _)) by lra.
  rewrite <- (Rmult_1_l (/ _)) at 2. apply Rmult_le_compat_r; [lra|]. apply Rabs_le, SIN_bound.
Qed.
Lemma cterm_bound n x k : (2 <= n)%nat -> Rabs (cterm n x k) <= / INR (S k) ^ 2.
Proof.
  intros H. eapply Rle_trans; [|apply (pow_inv_le n k H)]. unfold cterm, Rdiv. rewrite Rabs_mult.
  pose proof (pow_lt (INR (S k)) n (INR_S_pos k)) as P. apply Rinv_0_lt_compat in P. rewrite (Rabs_pos_eq (/ _)) by lra.
  rewrite <- (Rmult_1_l (/ _)) at 2. apply Rmult_le_compat_r; [lra|]. apply Rabs_le, COS_bound.
Qed.
Lemma sinser_series n x : (2 <= n)%nat -> is_series (sterm n x) (sinser n x).
Proof. intros H. apply tail_rate. intros k. apply sterm_bound. exact H. Qed.
Lemma cosser_series n x : (2 <= n)%nat -> is_series (cterm n x) (cosser n x).
Proof. intros H. apply tail_rate. intros k. apply cterm_bound. exact H. Qed.
Lemma sinser_rate n K x : (2 <= n)%nat -> Rabs (psin n K x - sinser n x) <= rate 3 K.
Proof. intros H. apply tail_rate. intros k. apply sterm_bound. exact H. Qed.
Lemma cosser_rate n K x : (2 <= n)%nat -> Rabs (pcos n K x - cosser n x) <= rate 3 K.
Proof. intros H. apply tail_rate. intros k. apply cterm_bound. exact H. Qed.

Lemma unif_continuous (fK : nat -> R -> R) f B x : (forall K y, Rabs (fK K y - f y) <= rate B K) ->
  (forall K, continuous (fK K) x) -> continuous f x.
Proof.
  intros H C. intros P [e He]. destruct (rate_small B (e / 4)) as [K HK]; [destruct e; cbn; lra|].
  assert (LC : locally (fK K x) (fun y => Rabs (y - fK K x) < e / 4)).
  { assert (e4 : 0 < e / 4) by (destruct e; cbn; lra). exists (mkposreal _ e4). intros y Hy. exact Hy. }
  specialize (C K _ LC). unfold filtermap in *. revert C. apply filter_imp. intros y Hy. apply He.
  change (Rabs (f y - f x) < e).
  pose proof (H K y) as H1. pose proof (H K x) as H2. pose proof (Rle_abs (rate B K)) as H3.
  apply Rabs_le_between in H1, H2. apply Rabs_def2 in Hy. apply Rabs_def1; lra.
Qed.
Lemma sinser_continuous n x : (2 <= n)%nat -> continuous (sinser n) x.
Proof.
  intros H. destruct n as [|n]; [lia|]. apply (unif_continuous (psin (S n)) _ 3); [intros; apply sinser_rate; exact H|intros; apply psin_continuous].
Qed.
Lemma cosser_continuous n x : (2 <= n)%nat -> continuous (cosser n) x.
Proof.
  intros H. destruct n as [|n]; [lia|]. apply (unif_continuous (pcos (S n)) _ 3); [intros; apply cosser_rate; exact H|intros; apply pcos_continuous].
Qed.

Lemma termwise (fK gK : nat -> R -> R) (f g : R -> R) a b B : 
  (forall K x, is_derive (fK K) x (gK K x)) ->
  (forall K x, a <= x <= b -> Rabs (gK K x - g x) <= rate B K) ->
  (forall x, a <= x <= b -> continuous g x) ->
  (forall x, a <= x <= b -> is_lim_seq (fun K => fK K x) (f x)) ->
  forall x, a < x < b -> is_derive f x (g x).
Proof.
  intros D H C L x Hx.
  set (phi := fun y => RInt g a y).
  assert (RI : forall y, a <= y <= b -> is_RInt g a y (phi y)).
  { intros y Hy. apply (@RInt_correct R_CompleteNormedModule). apply (ex_RInt_continuous g). intros z Hz. rewrite Rmin_left, Rmax_right in Hz by lra. apply C. lra. }
  assert (Dphi : forall y, a < y < b -> is_derive phi y (g y)).
  { intros y Hy. apply (is_derive_RInt g phi a).
    - apply (locally_interval _ y a b); cbn; try lra. intros z Hz1 Hz2. cbn in Hz1, Hz2. apply RI. lra.
    - apply C. lra. }
  assert (key : forall p q, a < p -> p <= q -> q < b -> f q - f p = phi q - phi p).
  { intros p q Hp Hpq Hq.
    assert (BB : forall K, Rabs ((fK K q - fK K p) - (phi q - phi p)) <= rate (B * (q - p)) K).
    { intros K. set (h := fun t => fK K t - phi t). 
      replace ((fK K q - fK K p) - (phi q - phi p)) with (h q - h p) by (unfold h; ring).
      replace (rate (B * (q - p)) K) with (rate B K * Rabs (q - p)) by (rewrite Rabs_pos_eq by lra; unfold rate; unfold Rdiv; ring).
      apply (deriv_bound_at h (fun t => gK K t - g t)).
      - intros t Ht. rewrite Rmin_left, Rmax_right in Ht by lra. apply (is_derive_minus (fK K) phi); [apply D|apply Dphi; lra].
      - intros t Ht. rewrite Rmin_left, Rmax_right in Ht by lra. apply H. lra. }
    pose proof (lim_of_rate _ _ _ BB) as L1.
    assert (L2 : is_lim_seq (fun K => fK K q - fK K p) (f q - f p)) by (apply is_lim_seq_minus'; apply L; lra).
    apply is_lim_seq_unique in L1. apply is_lim_seq_unique in L2. rewrite L1 in L2. injection L2. auto. }
  apply (is_derive_ext_loc (fun y => phi y + (f x - phi x))).
  - apply (locally_interval _ x a b); cbn; try lra. intros y Hy1 Hy2. cbn in Hy1, Hy2.
    change (phi y + (f x - phi x) = f y :> R).
    destruct (Rle_dec x y) as [Lxy|Lxy]; [pose proof (key x y ltac:(lra) ltac:(lra) ltac:(lra))|pose proof (key y x ltac:(lra) ltac:(lra) ltac:(lra))]; lra.
  - replace (g x) with (g x + 0) by ring. apply (is_derive_plus phi (fun _ => f x - phi x)); [apply Dphi; exact Hx|apply (is_derive_const (V := R_NormedModule))].
Qed.
Lemma sinser_derive n x : (2 <= n)%nat -> is_derive (sinser (S n)) x (cosser n x).
Proof.
  intros H. apply (termwise (psin (S n)) (pcos n) _ _ (x - 1) (x + 1) 3); try lra.
  - intros; apply psin_derive.
  - intros; apply cosser_rate; exact H.
  - intros; apply cosser_continuous; exact H.
  - intros y _. apply (lim_of_rate _ _ 3). intros K. apply sinser_rate. lia.
Qed.
Lemma cosser_derive n x : (2 <= n)%nat -> is_derive (cosser (S n)) x (- sinser n x).
Proof.
  intros H. apply (termwise (pcos (S n)) (fun K y => - psin n K y) _ (fun y => - sinser n y) (x - 1) (x + 1) 3); try lra.
  - intros; apply pcos_derive.
  - intros K y _. replace (- psin n K y - - sinser n y) with (- (psin n K y - sinser n y)) by ring. rewrite Rabs_Ropp. apply sinser_rate; exact H.
  - intros. apply (continuous_opp (sinser n)). apply sinser_continuous; exact H.
  - intros y _. apply (lim_of_rate _ _ 3). intros K. apply cosser_rate. lia.
Qed.
(** order 1 *)
Theorem sinser_1 x : 0 < x < 2 * PI -> is_series (sterm 1 x) ((PI - x) / 2).
Proof.
  intros Hx. set (a := Rmin (Rmin x (2 * PI - x)) 1). pose proof PI_RGT_0. pose proof PI2_1.
  assert (Ha : 0 < a < PI). { split; [repeat apply Rmin_glb_lt; lra|]. apply Rle_lt_trans with 1; [apply Rmin_r|lra]. }
  assert (a <= x). { eapply Rle_trans; [apply Rmin_l|apply Rmin_l]. }
  assert (a <= 2 * PI - x). { eapply Rle_trans; [apply Rmin_l|apply Rmin_r]. }
  eapply series_of_rate. intros K. apply (order1_sin a K Ha). lra.
Qed.
Theorem cosser_1 x : 0 < x < 2 * PI -> is_series (cterm 1 x) (- ln (2 * sin (x / 2))).
Proof.
  intros Hx. set (a := Rmin (Rmin x (2 * PI - x)) 1). pose proof PI_RGT_0. pose proof PI2_1.
  assert (Ha : 0 < a < PI). { split; [repeat apply Rmin_glb_lt; lra|]. apply Rle_lt_trans with 1; [apply Rmin_r|lra]. }
  assert (a <= x). { eapply Rle_trans; [apply Rmin_l|apply Rmin_l]. }
  assert (a <= 2 * PI - x). { eapply Rle_trans; [apply Rmin_l|apply Rmin_r]. }
  eapply series_of_rate. intros K. apply (order1_cos a K Ha). lra.
Qed.
Lemma around x : 0 < x < 2 * PI -> exists a, 0 < a < PI /\ a < x < 2 * PI - a.
Proof.
  intros Hx. exists (Rmin (Rmin x (2 * PI - x)) 1 / 2). pose proof PI2_1.
  assert (0 < Rmin (Rmin x (2 * PI - x)) 1) by (repeat apply Rmin_glb_lt; lra).
  assert (Rmin (Rmin x (2 * PI - x)) 1 <= 1) by apply Rmin_r.
  assert (Rmin (Rmin x (2 * PI - x)) 1 <= x) by (eapply Rle_trans; [apply Rmin_l|apply Rmin_l]).
  assert (Rmin (Rmin x (2 * PI - x)) 1 <= 2 * PI - x) by (eapply Rle_trans; [apply Rmin_l|apply Rmin_r]). lra.
Qed.
Theorem sinser_2_derive x : 0 < x < 2 * PI -> is_derive (sinser 2) x (- ln (2 * sin (x / 2))).
Proof.
  intros Hx. destruct (around x Hx) as (a & Ha & Hax).
  apply (termwise (psin 2) (pcos 1) _ (fun x => - ln (2 * sin (x / 2))) a (2 * PI - a) (6 / (sin (a / 2) * sin (a / 2)))); try lra.
  - intros; apply psin_derive.
  - intros K y Hy. apply order1_cos; assumption.
  - intros y Hy. apply (ex_derive_continuous (fun x => - ln (2 * sin (x / 2)))).
    assert (0 < sin (y * / 2)) by (apply sin_gt_0; lra). auto_derive. lra.
  - intros y _. apply (lim_of_rate _ _ 3). intros K. apply sinser_rate. lia.
Qed.
Theorem cosser_2_derive x : 0 < x < 2 * PI -> is_derive (cosser 2) x (- ((PI - x) / 2)).
Proof.
  intros Hx. destruct (around x Hx) as (a & Ha & Hax).
  apply (termwise (pcos 2) (fun K y => - psin 1 K y) _ (fun x => - ((PI - x) / 2)) a (2 * PI - a) (6 / (sin (a / 2) * sin (a / 2)))); try lra.
  - intros; apply pcos_derive.
  - intros K y Hy. replace (- psin 1 K y - - ((PI - y) / 2)) with (- (psin 1 K y - (PI - y) / 2)) by ring. rewrite Rabs_Ropp. apply order1_sin; assumption.
  - intros y Hy. apply (ex_derive_continuous (fun x => - ((PI - x) / 2))). auto_derive. trivial.
  - intros y _. apply (lim_of_rate _ _ 3). intros K. apply cosser_rate. lia.
Qed.

(** values at the end points *)
Lemma sinser_0 n : sinser n 0 = 0.
Proof.
  unfold sinser. rewrite (Series_ext _ (fun k => 0 * (fun _ => 0) k)); [rewrite Series_scal_l; ring|].
  intros k. unfold sterm. rewrite Rmult_0_r, sin_0. unfold Rdiv. ring.
Qed.
Lemma sinser_PI n : sinser n PI = 0.
Proof.
  unfold sinser. rewrite (Series_ext _ (fun k => 0 * (fun _ => 0) k)); [rewrite Series_scal_l; ring|].
  intros k. unfold sterm. rewrite sin_INR_PI. unfold Rdiv. ring.
Qed.
Lemma cosser_0 n : (2 <= n)%nat -> cosser n 0 = ReLi n 1.
Proof.
  intros H. apply (is_series_unique (cterm n 0)). apply (is_series_ext (zterm n)); [|apply ReLi_at_1; exact H].
  intros k. change (zterm n k = cterm n 0 k :> R). unfold zterm, cterm. rewrite Rmult_0_r, cos_0. unfold Rdiv. ring.
Qed.

(** ** The even-order cosine series, in closed form *)
Theorem cosser_2 x : 0 <= x <= 2 * PI -> cosser 2 x = (PI - x) ^ 2 / 4 - PI ^ 2 / 12.
Proof.
  pose proof PI_RGT_0 as HP.
  set (g := fun x => cosser 2 x - (PI - x) ^ 2 / 4).
  assert (gC : forall x, continuous g x).
  { intros y. apply (continuous_minus (cosser 2) (fun x => (PI - x) ^ 2 / 4)); [apply cosser_continuous; lia|].
    apply (ex_derive_continuous (fun x => (PI - x) ^ 2 / 4)). auto_derive. trivial. }
  assert (g1 : forall y, 0 <= y <= 2 * PI -> g y = g PI).
  { intros y Hy. apply const_on_closed'; [intros; apply gC|]. intros t Ht.
    assert (0 <= Rmin y PI) by (apply Rmin_glb; lra). assert (Rmax y PI <= 2 * PI) by (apply Rmax_lub; lra).
    replace 0 with (- ((PI - t) / 2) - (- ((PI - t) / 2))) by ring.
    apply (is_derive_minus (cosser 2) (fun x => (PI - x) ^ 2 / 4)); [apply cosser_2_derive; lra|]. auto_derive; [trivial|]. field. }
  assert (gP : g PI = - PI ^ 2 / 12).
  { set (h := fun x => sinser 3 x - (g PI * x - (PI - x) ^ 3 / 12)).
    assert (E : h 0 = h PI).
    { apply const_on_closed; [lra| |].
      - intros y Hy. apply (continuous_minus (sinser 3) (fun x => g PI * x - (PI - x) ^ 3 / 12)); [apply sinser_continuous; lia|].
        apply (ex_derive_continuous (fun x => g PI * x - (PI - x) ^ 3 / 12)). auto_derive. trivial.
      - intros y Hy. replace 0 with (cosser 2 y - (g PI + (PI - y) ^ 2 / 4)) by (rewrite <- (g1 y) by lra; unfold g; ring).
        apply (is_derive_minus (sinser 3) (fun x => g PI * x - (PI - x) ^ 3 / 12)); [apply sinser_derive; lia|]. generalize (g PI). intros c. auto_derive; [trivial|]. field. }
    unfold h in E. rewrite sinser_0, sinser_PI in E. 
    apply (Rmult_eq_reg_r PI); [|lra]. nra. }
  intros Hx. specialize (g1 x Hx). rewrite gP in g1. unfold g in g1. lra.
Qed.
Corollary basel : ReLi 2 1 = PI ^ 2 / 6.
Proof. rewrite <- cosser_0 by lia. rewrite cosser_2 by (pose proof PI_RGT_0; lra). field. Qed.
