(** * The real polylogarithms Re Li_n(x) on the whole real line.

    [ReLi n] is defined by integration; [ReLi_family] characterises it (Li_1 is
    -log|1-x|, x Li_{n+1}' = Li_n, Li_{n+1}(0) = 0, continuity), [ReLi_unique]
    shows that the characterisation determines it. Nothing here mentions the code. *)
From Coq Require Import Reals Lra Lia Psatz.
From Coquelicot Require Import Coquelicot.
Local Open Scope R_scope.

(** ** log|x| *)
Lemma is_derive_idR (x : R) : is_derive (fun t : R => t) x 1. Proof. exact (@is_derive_id R_AbsRing x). Qed.
Lemma is_derive_lnabs x : x <> 0 -> is_derive (fun t => ln (Rabs t)) x (/ x).
Proof.
  intros H. destruct (Rtotal_order x 0) as [L|[E|G]]; [|contradiction|].
  - apply (is_derive_ext_loc (fun t => ln (- t))).
    + apply (locally_interval _ x m_infty 0); [exact I|exact L|]. intros y _ Hy. cbn in Hy. rewrite Rabs_left; auto.
    + auto_derive; [lra|]. field. lra.
  - apply (is_derive_ext_loc (fun t => ln t)).
    + apply (locally_interval _ x 0 p_infty); [exact G|exact I|]. intros y Hy _. cbn in Hy. rewrite Rabs_right; auto. lra.
    + auto_derive; [lra|]. field. lra.
Qed.
Lemma ln_le_sub1 x : 0 < x -> ln x <= x - 1.
Proof. intros H. pose proof (exp_ineq1_le (ln x)). rewrite exp_ln in H0 by exact H. lra. Qed.

(** ** (1-t) log|1-t| is continuous *)
Lemma xlnx_bound u : Rabs (u * ln (Rabs u)) <= Rabs u * Rabs u + 2 * sqrt (Rabs u).
Proof.
  destruct (Req_dec u 0) as [->|N].
  - rewrite Rmult_0_l, Rabs_R0, sqrt_0. lra.
  - assert (A : 0 < Rabs u) by (apply Rabs_pos_lt; exact N).
    rewrite Rabs_mult. set (v := Rabs u) in *.
    assert (S : 0 < sqrt v) by (apply sqrt_lt_R0; exact A).
    assert (SS : sqrt v * sqrt v = v) by (apply sqrt_sqrt; lra).
    assert (L : ln v = 2 * ln (sqrt v)). { rewrite <- SS at 1. rewrite ln_mult by assumption. ring. }
    assert (U : ln v <= v) by (pose proof (ln_le_sub1 v A); lra).
    assert (D : - ln v <= 2 / sqrt v).
    { pose proof (ln_le_sub1 (/ sqrt v) (Rinv_0_lt_compat _ S)) as K. rewrite ln_Rinv in K by exact S. unfold Rdiv. lra. }
    apply Rle_trans with (v * (v + 2 / sqrt v)).
    + apply Rmult_le_compat_l; [lra|]. apply Rabs_le. assert (0 < 2 / sqrt v) by (apply Rdiv_lt_0_compat; lra). lra.
    + apply Req_le. rewrite Rmult_plus_distr_l. f_equal. rewrite <- SS at 1. field. lra.
Qed.
Lemma xlnx_continuous u : continuous (fun u => u * ln (Rabs u)) u.
Proof.
  destruct (Req_dec u 0) as [->|N].
  - intros P [e He]. 
    assert (C : continuous (fun v => Rabs v * Rabs v + 2 * sqrt (Rabs v)) 0).
    { apply (continuous_plus (fun v => Rabs v * Rabs v) (fun v => 2 * sqrt (Rabs v))).
      - apply (continuous_mult Rabs Rabs); apply continuous_Rabs.
      - apply (continuous_scal_r 2 (fun v => sqrt (Rabs v))). apply (continuous_comp Rabs sqrt); [apply continuous_Rabs|apply continuous_sqrt]. }
    specialize (C (fun y => Rabs y < e)).
    assert (LC : locally (Rabs 0 * Rabs 0 + 2 * sqrt (Rabs 0)) (fun y => Rabs y < e)).
    { rewrite Rabs_R0, sqrt_0. replace (0 * 0 + 2 * 0) with 0 by ring. exists e. intros y Hy. unfold ball in Hy; cbn in Hy. unfold AbsRing_ball, abs, minus, plus, opp in Hy; cbn in Hy. rewrite Ropp_0, Rplus_0_r in Hy. exact Hy. }
    specialize (C LC). unfold filtermap in *. revert C. apply filter_imp. intros y Hy. apply He.
    unfold ball; cbn. unfold AbsRing_ball, abs, minus, plus, opp; cbn. rewrite Rmult_0_l, Ropp_0, Rplus_0_r.
    eapply Rle_lt_trans; [apply xlnx_bound|]. eapply Rle_lt_trans; [apply Rle_abs|exact Hy].
  - apply (continuous_mult (fun u => u) (fun u => ln (Rabs u))); [apply continuous_id|].
    apply (ex_derive_continuous (fun t => ln (Rabs t))). eexists. apply is_derive_lnabs. exact N.
Qed.

(** ** the auxiliary integrand of the dilogarithm *)
Definition gaux (t : R) : R := (1 - t) * ln (Rabs (1 - t)) + t.
Definition haux (t : R) : R := if Req_EM_T t 0 then /2 else gaux t / (t * t).

Lemma gaux_continuous t : continuous gaux t.
Proof.
  apply (continuous_plus (fun t => (1 - t) * ln (Rabs (1 - t))) (fun t => t)); [|apply continuous_id].
  apply (continuous_comp (fun t => 1 - t) (fun u => u * ln (Rabs u))); [|apply xlnx_continuous].
  apply (continuous_minus (fun _ => 1) (fun t => t)); [apply continuous_const|apply continuous_id].
Qed.
Lemma gaux_derive t : t <> 1 -> is_derive gaux t (- ln (Rabs (1 - t))).
Proof.
  intros H. unfold gaux.
  assert (D : is_derive (fun t => ln (Rabs (1 - t))) t (-1 * / (1 - t))).
  { apply (is_derive_comp (fun u => ln (Rabs u)) (fun t => 1 - t)); [apply is_derive_lnabs; lra|]. auto_derive; [trivial|ring]. }
  replace (- ln (Rabs (1 - t))) with ((-1) * ln (Rabs (1 - t)) + (1 - t) * (-1 * / (1 - t)) + 1) by (field; lra).
  apply (is_derive_plus (fun t => (1 - t) * ln (Rabs (1 - t))) (fun t => t)); [|apply is_derive_idR].
  apply (is_derive_mult (fun t => 1 - t) (fun t => ln (Rabs (1 - t))));
    [auto_derive; [trivial|ring]|exact D|intros; apply Rmult_comm].
Qed.
Lemma mlog_third t : Rabs t <= /2 -> Rabs (- ln (1 - t) - t - t * t / 2) <= 2 * (Rabs t * Rabs t * Rabs t).
Proof.
  intros H. apply Rabs_le_between in H.
  set (f := fun t => - ln (1 - t) - t - t * t / 2).
  assert (D : forall c, - /2 <= c <= /2 -> is_derive f c (c * c / (1 - c))).
  { intros c Hc. unfold f. auto_derive; [lra|]. field. lra. }
  assert (f0 : f 0 = 0) by (unfold f; replace (1 - 0) with 1 by ring; rewrite ln_1; lra).
  destruct (MVT_gen f 0 t (fun c => c * c / (1 - c))) as (c & Hc & E).
  - intros x Hx. apply D. unfold Rmin, Rmax in Hx. destruct (Rle_dec 0 t); lra.
  - intros x Hx. apply continuity_pt_filterlim. apply (ex_derive_continuous f). eexists. apply D. unfold Rmin, Rmax in Hx. destruct (Rle_dec 0 t); lra.
  - change (- ln (1 - t) - t - t * t / 2) with (f t). rewrite f0, !Rminus_0_r in E. rewrite E, Rabs_mult.
    replace (2 * (Rabs t * Rabs t * Rabs t)) with (2 * (Rabs t * Rabs t) * Rabs t) by ring.
    apply Rmult_le_compat_r; [apply Rabs_pos|].
    assert (CB : Rabs c <= Rabs t /\ c <= /2) by (unfold Rmin, Rmax in Hc; destruct (Rle_dec 0 t); split; unfold Rabs; destruct (Rcase_abs c), (Rcase_abs t); lra).
    destruct CB as [CB C2]. unfold Rdiv. rewrite !Rabs_mult, Rabs_Rinv, (Rabs_pos_eq (1 - c)) by lra.
    assert (I : / (1 - c) <= 2). { replace 2 with (/ (/2)) by lra. apply Rinv_le_contravar; lra. }
    assert (0 < / (1 - c)) by (apply Rinv_0_lt_compat; lra).
    pose proof (Rabs_pos c). 
    apply Rle_trans with (Rabs c * Rabs c * 2); [apply Rmult_le_compat_l; nra|]. nra.
Qed.
Lemma haux_near0 t : Rabs t <= /2 -> Rabs (haux t - /2) <= 4 * Rabs t.
Proof.
  intros H. unfold haux. destruct (Req_EM_T t 0) as [->|N].
  - rewrite Rminus_diag_eq by reflexivity. rewrite Rabs_R0. lra.
  - pose proof (mlog_third t H) as K. apply Rabs_le_between in H.
    set (r := - ln (1 - t) - t - t * t / 2) in *.
    assert (L : ln (1 - t) = - (t + t * t / 2 + r)) by (unfold r; ring).
    unfold gaux. rewrite (Rabs_pos_eq (1 - t)), L by lra.
    replace (((1 - t) * - (t + t * t / 2 + r) + t) / (t * t) - / 2) with (t / 2 - (1 - t) * r * / (t * t)) by (field; lra).
    assert (TT : 0 < t * t) by nra.
    assert (AT : Rabs t * Rabs t = t * t) by (rewrite <- Rabs_mult, Rabs_pos_eq; lra).
    assert (Rabs ((1 - t) * r * / (t * t)) <= 3 * Rabs t).
    { rewrite !Rabs_mult, Rabs_Rinv, (Rabs_pos_eq (t * t)) by lra. rewrite AT in K.
      apply Rmult_le_reg_r with (t * t); [exact TT|]. rewrite Rmult_assoc, Rinv_l, Rmult_1_r by lra.
      assert (Rabs (1 - t) <= 3 / 2) by (apply Rabs_le; lra). pose proof (Rabs_pos r). pose proof (Rabs_pos t). pose proof (Rabs_pos (1 - t)). nra. }
    eapply Rle_trans; [apply Rabs_triang|]. rewrite Rabs_Ropp.
    assert (Rabs (t / 2) = Rabs t / 2) by (unfold Rdiv; rewrite Rabs_mult, (Rabs_pos_eq (/2)); [reflexivity|lra]). pose proof (Rabs_pos t). lra.
Qed.
Lemma locally_neq (a x : R) : x <> a -> locally x (fun y => y <> a).
Proof.
  intros H. destruct (Rtotal_order x a) as [L|[E|G]]; [|contradiction|].
  - apply (locally_interval _ x m_infty a); [exact I|exact L|]. intros y _ Hy E. cbn in Hy. lra.
  - apply (locally_interval _ x a p_infty); [exact G|exact I|]. intros y Hy _ E. cbn in Hy. lra.
Qed.
Lemma haux_continuous t : continuous haux t.
Proof.
  destruct (Req_dec t 0) as [->|N].
  - intros P [e He]. unfold filtermap.
    assert (M : 0 < Rmin (/2) (e / 8)) by (apply Rmin_glb_lt; [lra|destruct e; cbn; lra]).
    exists (mkposreal _ M). intros y Hy. apply He. unfold ball in *; cbn in *. unfold AbsRing_ball, abs, minus, plus, opp in *; cbn in *.
    rewrite Ropp_0, Rplus_0_r in Hy.
    pose proof (Rmin_l (/2) (e / 8)). pose proof (Rmin_r (/2) (e / 8)).
    replace (haux 0) with (/2) by (unfold haux; destruct (Req_EM_T 0 0); [reflexivity|contradiction]).
    eapply Rle_lt_trans; [apply haux_near0; lra|]. destruct e as [e e0]; cbn in *. lra.
  - apply (continuous_ext_loc _ (fun t => gaux t / (t * t))).
    + eapply filter_imp; [|apply (locally_neq 0 t N)]. intros y Hy. unfold haux. destruct (Req_EM_T y 0); [contradiction|reflexivity].
    + apply (continuous_mult gaux (fun t => / (t * t))); [apply gaux_continuous|].
      apply (ex_derive_continuous (fun t => / (t * t))). auto_derive. nra.
Qed.

(** ** the functions *)
Definition Li2R (x : R) : R := x * haux x + RInt haux 0 x.
(** the integrand L(t)/t with its limit at 0 *)
Definition over_t (L : R -> R) (t : R) : R := if Req_EM_T t 0 then 1 else L t / t.
Fixpoint ReLi (n : nat) : R -> R :=
  match n with
  | O => fun x => x / (1 - x)
  | S O => fun x => - ln (Rabs (1 - x))
  | S (S O) => Li2R
  | S m => fun x => RInt (over_t (ReLi m)) 0 x
  end.

Lemma RInt_haux_derive x : is_derive (fun x => RInt haux 0 x) x (haux x).
Proof.
  apply (is_derive_RInt haux (fun x => RInt haux 0 x) 0).
  - apply filter_forall. intros y. apply (@RInt_correct R_CompleteNormedModule). apply (ex_RInt_continuous haux). intros z _. apply haux_continuous.
  - apply haux_continuous.
Qed.
Lemma Li2R_0 : Li2R 0 = 0.
Proof. unfold Li2R. rewrite RInt_point. rewrite Rmult_0_l. unfold zero; cbn. ring. Qed.
Lemma Li2R_continuous x : continuous Li2R x.
Proof.
  apply (continuous_plus (fun x => x * haux x) (fun x => RInt haux 0 x)).
  - apply (continuous_mult (fun x => x) haux); [apply continuous_id|apply haux_continuous].
  - apply (ex_derive_continuous (fun x => RInt haux 0 x)). eexists. apply RInt_haux_derive.
Qed.
Lemma is_derive_xf (f : R -> R) : continuous f 0 -> is_derive (fun x => x * f x) 0 (f 0).
Proof.
  intros C. split; [apply is_linear_scal_l|]. intros z Hz [e He].
  apply (is_filter_lim_locally_unique (0:R)) in Hz. subst z.
  assert (LC : locally (f 0) (fun y => Rabs (y - f 0) < e)). { exists (mkposreal e He). intros y Hy. exact Hy. }
  specialize (C _ LC). unfold filtermap in C. revert C. apply filter_imp. intros y Hy.
  unfold norm, minus, plus, opp, scal; cbn. unfold abs, mult; cbn.
  rewrite Rmult_0_l, Ropp_0, !Rplus_0_r. replace (y * f y + - (y * f 0)) with (y * (f y - f 0)) by ring.
  rewrite Rabs_mult. rewrite Rmult_comm. apply Rmult_le_compat_r; [apply Rabs_pos|]. lra.
Qed.
Lemma Li2R_derive x : x <> 1 -> is_derive Li2R x (over_t (ReLi 1) x).
Proof.
  intros H1. unfold over_t. destruct (Req_EM_T x 0) as [->|N].
  - replace 1 with (haux 0 + haux 0) by (unfold haux; destruct (Req_EM_T 0 0); [lra|contradiction]).
    apply (is_derive_plus (fun x => x * haux x) (fun x => RInt haux 0 x)); [|apply RInt_haux_derive].
    apply is_derive_xf. apply haux_continuous.
  - cbn [ReLi]. replace (- ln (Rabs (1 - x)) / x) with ((- ln (Rabs (1 - x)) / x - haux x) + haux x) by ring.
    apply (is_derive_plus (fun x => x * haux x) (fun x => RInt haux 0 x)); [|apply RInt_haux_derive].
    apply (is_derive_ext_loc (fun x => gaux x / x)).
    + eapply filter_imp; [|apply (locally_neq 0 x N)]. intros y Hy. unfold haux. destruct (Req_EM_T y 0); [contradiction|]. change (gaux y / y = y * (gaux y / (y * y))). field. exact Hy.
    + replace (- ln (Rabs (1 - x)) / x - haux x) with ((- ln (Rabs (1 - x)) * x - gaux x * 1) / x ^ 2).
      * apply (is_derive_div gaux (fun x => x)); [apply gaux_derive; lra|apply is_derive_idR|exact N].
      * unfold haux. destruct (Req_EM_T x 0); [contradiction|]. field. lra.
Qed.

(** L continuous with L(0)=0 and L'(0)=1 makes L(t)/t continuous *)
Lemma over_t_continuous L : (forall x, continuous L x) -> L 0 = 0 -> is_derive L 0 1 -> forall x, continuous (over_t L) x.
Proof.
  intros C L0 D x. destruct (Req_dec x 0) as [->|N].
  - intros P [e He]. unfold filtermap.
    destruct D as [_ D]. specialize (D 0 (fun P H => H)).
    assert (e2 : 0 < e / 2) by (destruct e; cbn; lra). specialize (D (mkposreal _ e2)).
    revert D. apply filter_imp. intros y Hy. apply He.
    unfold norm, minus, plus, opp, scal in Hy; cbn in Hy. unfold abs, mult in Hy; cbn in Hy.
    unfold ball; cbn. unfold AbsRing_ball, abs, minus, plus, opp; cbn.
    unfold over_t. destruct (Req_EM_T 0 0); [|contradiction]. destruct e as [e ep]; cbn in *.
    destruct (Req_EM_T y 0) as [->|Ny]. { rewrite Rplus_opp_r, Rabs_R0. exact ep. }
    rewrite L0, Ropp_0, !Rplus_0_r, Rmult_1_r in Hy.
    replace (L y / y + - (1)) with ((L y - y) / y) by (field; exact Ny).
    unfold Rdiv. rewrite Rabs_mult, Rabs_Rinv by exact Ny.
    assert (0 < Rabs y) by (apply Rabs_pos_lt; exact Ny).
    apply Rmult_lt_reg_r with (Rabs y); [assumption|]. rewrite Rmult_assoc, Rinv_l, Rmult_1_r by lra. unfold Rminus. nra.
  - apply (continuous_ext_loc _ (fun t => L t / t)).
    + eapply filter_imp; [|apply (locally_neq 0 x N)]. intros y Hy. unfold over_t. destruct (Req_EM_T y 0); [contradiction|reflexivity].
    + apply (continuous_mult L (fun t => / t)); [apply C|].
      apply (ex_derive_continuous (fun t => / t)). auto_derive. exact N.
Qed.

Lemma ReLi_S n x : (2 <= n)%nat -> ReLi (S n) x = RInt (over_t (ReLi n)) 0 x.
Proof. intros H. destruct n as [|[|n]]; [inversion H|inversion H; inversion H1|reflexivity]. Qed.

Theorem ReLi_props n : (2 <= n)%nat ->
  ReLi n 0 = 0 /\ (forall x, continuous (ReLi n) x) /\ is_derive (ReLi n) 0 1 /\ (forall x, continuous (over_t (ReLi n)) x).
Proof.
  induction n as [|n IH]; [intros H; inversion H|]. intros H. destruct (Nat.eq_dec n 1) as [->|Hn].
  - assert (A : ReLi 2 0 = 0) by exact Li2R_0.
    assert (B : forall x, continuous (ReLi 2) x) by exact Li2R_continuous.
    assert (C : is_derive (ReLi 2) 0 1).
    { pose proof (Li2R_derive 0 ltac:(lra)) as K. unfold over_t in K. destruct (Req_EM_T 0 0); [exact K|contradiction]. }
    split; [exact A|]. split; [exact B|]. split; [exact C|]. apply over_t_continuous; assumption.
  - assert (G : (2 <= n)%nat) by (apply Nat.le_succ_r in H; destruct H as [H|H]; [exact H|]; injection H as H; lia || (exfalso; apply Hn; auto)).
    destruct (IH G) as (A & B & C & D).
    assert (DD : forall x, is_derive (ReLi (S n)) x (over_t (ReLi n) x)).
    { intros x. apply (is_derive_ext (fun x => RInt (over_t (ReLi n)) 0 x)); [intros t; symmetry; apply ReLi_S; exact G|].
      apply (is_derive_RInt _ (fun x => RInt (over_t (ReLi n)) 0 x) 0); [|apply D].
      apply filter_forall. intros y. apply (@RInt_correct R_CompleteNormedModule). apply (ex_RInt_continuous (over_t (ReLi n))). intros z _. apply D. }
    assert (A' : ReLi (S n) 0 = 0) by (rewrite ReLi_S by exact G; rewrite RInt_point; reflexivity).
    assert (B' : forall x, continuous (ReLi (S n)) x) by (intros x; apply (ex_derive_continuous (ReLi (S n))); eexists; apply DD).
    assert (C' : is_derive (ReLi (S n)) 0 1). { pose proof (DD 0) as K. unfold over_t in K. destruct (Req_EM_T 0 0); [exact K|contradiction]. }
    split; [exact A'|]. split; [exact B'|]. split; [exact C'|]. apply over_t_continuous; assumption.
Qed.
Theorem ReLi_derive n x : (1 <= n)%nat -> x <> 1 \/ (2 <= n)%nat -> is_derive (ReLi (S n)) x (over_t (ReLi n) x).
Proof.
  intros H K. destruct (Nat.eq_dec n 1) as [->|Hn].
  - destruct K as [K|K]; [apply Li2R_derive; exact K|exfalso; lia].
  - assert (G : (2 <= n)%nat) by lia. destruct (ReLi_props n G) as (_ & _ & _ & D).
    apply (is_derive_ext (fun x => RInt (over_t (ReLi n)) 0 x)); [intros t; symmetry; apply ReLi_S; exact G|].
    apply (is_derive_RInt _ (fun x => RInt (over_t (ReLi n)) 0 x) 0); [|apply D].
    apply filter_forall. intros y. apply (@RInt_correct R_CompleteNormedModule). apply (ex_RInt_continuous (over_t (ReLi n))). intros z _. apply D.
Qed.
Lemma ReLi_derive_n0 n x : (1 <= n)%nat -> x <> 0 -> x <> 1 \/ (2 <= n)%nat -> is_derive (ReLi (S n)) x (ReLi n x / x).
Proof.
  intros H X K. pose proof (ReLi_derive n x H K) as D. unfold over_t in D. destruct (Req_EM_T x 0); [contradiction|exact D].
Qed.

(** ** characterisation *)
Definition ReLi_family (L : nat -> R -> R) : Prop :=
  (forall x, L 1%nat x = - ln (Rabs (1 - x))) /\
  forall n, (1 <= n)%nat -> L (S n) 0 = 0 /\ (forall x, continuous (L (S n)) x) /\
    forall x, x <> 0 -> x <> 1 -> is_derive (L (S n)) x (L n x / x).
Theorem ReLi_is_family : ReLi_family ReLi.
Proof.
  split; [reflexivity|]. intros n H. destruct (ReLi_props (S n) ltac:(lia)) as (A & B & _).
  split; [exact A|]. split; [exact B|]. intros x X0 X1. apply ReLi_derive_n0; auto.
Qed.

(** a continuous function with derivative 0 except at finitely many points is constant *)
Lemma const_on_open (f : R -> R) a b : (forall x, a < x < b -> is_derive f x 0) -> forall x y, a < x < b -> a < y < b -> f x = f y.
Proof.
  intros D. assert (W : forall x y, a < x < b -> a < y < b -> x < y -> f x = f y).
  { intros x y Hx Hy L. destruct (MVT_gen f x y (fun _ => 0)) as (c & Hc & E).
    - intros z Hz. rewrite Rmin_left, Rmax_right in Hz by lra. apply D. lra.
    - intros z Hz. rewrite Rmin_left, Rmax_right in Hz by lra. apply continuity_pt_filterlim. apply (ex_derive_continuous f). eexists. apply D. lra.
    - rewrite Rmult_0_l in E. lra. }
  intros x y Hx Hy. destruct (Rtotal_order x y) as [L|[->|G]]; [auto|reflexivity|symmetry; auto].
Qed.
Lemma const_on_closed (f : R -> R) a b : a <= b -> (forall x, a <= x <= b -> continuous f x) ->
  (forall x, a < x < b -> is_derive f x 0) -> f a = f b.
Proof.
  intros H C D. destruct (MVT_gen f a b (fun _ => 0)) as (c & Hc & E).
  - intros z Hz. rewrite Rmin_left, Rmax_right in Hz by lra. apply D. lra.
  - intros z Hz. rewrite Rmin_left, Rmax_right in Hz by lra. apply continuity_pt_filterlim. apply C. lra.
  - rewrite Rmult_0_l in E. lra.
Qed.
Lemma const_on_closed' (f : R -> R) a b : (forall x, Rmin a b <= x <= Rmax a b -> continuous f x) ->
  (forall x, Rmin a b < x < Rmax a b -> is_derive f x 0) -> f a = f b.
Proof.
  intros C D. destruct (Rle_dec a b) as [L|L].
  - rewrite Rmin_left, Rmax_right in * by lra. apply const_on_closed; auto.
  - rewrite Rmin_right, Rmax_left in * by lra. symmetry. apply const_on_closed; auto. lra.
Qed.

Theorem ReLi_unique L : ReLi_family L -> forall n x, (1 <= n)%nat -> L n x = ReLi n x.
Proof.
  intros [L1 LS]. intros n. destruct n as [|n]; [intros x H; inversion H|].
  induction n as [|n IH]; intros x _; [apply L1|].
  destruct (LS (S n) ltac:(lia)) as (Z & C & D). destruct (ReLi_props (S (S n)) ltac:(lia)) as (Z' & C' & _).
  set (f := fun x => L (S (S n)) x - ReLi (S (S n)) x).
  assert (fC : forall x, continuous f x) by (intros y; apply (continuous_minus (L (S (S n))) (ReLi (S (S n)))); auto).
  assert (fD : forall x, x <> 0 -> x <> 1 -> is_derive f x 0).
  { intros y Y0 Y1. replace 0 with (L (S n) y / y - ReLi (S n) y / y) by (rewrite IH by lia; ring).
    apply (is_derive_minus (L (S (S n))) (ReLi (S (S n)))); [apply D; auto|apply ReLi_derive_n0; auto; lia]. }
  assert (f0 : f 0 = 0) by (unfold f; rewrite Z, Z'; ring).
  enough (f x = 0) by (unfold f in H; lra).
  destruct (Rle_dec x 1) as [X|X].
  - rewrite <- f0. symmetry. apply const_on_closed'; auto. intros y Hy. apply fD; revert Hy; unfold Rmin, Rmax; destruct (Rle_dec 0 x); lra.
  - transitivity (f 1).
    + symmetry. apply const_on_closed; auto; [lra|]. intros y Hy. apply fD; lra.
    + rewrite <- f0. symmetry. apply const_on_closed; auto; [lra|]. intros y Hy. apply fD; lra.
Qed.
