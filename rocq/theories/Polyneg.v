(** * Polylogarithms of non-positive integer order: the rational functions (z d/dz)^m z/(1-z) *)
From Coq Require Import ZArith Reals List Lra Lia Psatz.
From Coquelicot Require Import Coquelicot.
From Verif Require Import NumR Spec Proof_Horner Cplx Chain Clog_series.
Import ListNotations.
Local Open Scope R_scope.

(** ** Specification: Li_{-m}(z) = Q_m(z/(1-z)) with Q_0 = u, Q_{m+1} = u (1+u) Q_m'(u);
    the derivation u(1+u) d/du is z d/dz for u = z/(1-z). *)
Fixpoint peval (l : list R) (u : C) : C := match l with [] => RtoC 0 | a :: l' => Cplus (RtoC a) (Cmult u (peval l' u)) end.
(** coefficients of u * l'(u), starting index k: sum_i (k+i) l_i u^i *)
Fixpoint theta (k : R) (l : list R) : list R := match l with [] => [] | a :: l' => k * a :: theta (k + 1) l' end.
Fixpoint ladd (l m : list R) : list R :=
  match l, m with [], _ => m | _, [] => l | a :: l', b :: m' => a + b :: ladd l' m' end.
Fixpoint Qpoly (m : nat) : list R :=
  match m with O => [0; 1] | S m' => let t := theta 0 (Qpoly m') in ladd t (0 :: t) end.
Definition Li_neg (m : nat) (z : C) : C := peval (Qpoly m) (Cdiv z (Cminus (RtoC 1) z)).

Lemma peval_ladd l m u : peval (ladd l m) u = Cplus (peval l u) (peval m u).
Proof.
  revert m. induction l as [|a l IH]; intros m; [cbn; ring|]. destruct m as [|b m]; [cbn; ring|].
  cbn [ladd peval]. rewrite IH, RtoC_plus. ring.
Qed.

(** ** derivatives of complex valued functions of a real variable *)
Definition Cder (f : R -> C) (t : R) (d : C) : Prop :=
  is_derive (fun t => fst (f t)) t (fst d) /\ is_derive (fun t => snd (f t)) t (snd d).
Lemma Cder_plus f g t a b : Cder f t a -> Cder g t b -> Cder (fun t => Cplus (f t) (g t)) t (Cplus a b).
Proof.
  intros [A B] [C D]. split.
  - apply (is_derive_plus (fun t => fst (f t)) (fun t => fst (g t))); assumption.
  - apply (is_derive_plus (fun t => snd (f t)) (fun t => snd (g t))); assumption.
Qed.
Lemma Cder_opp f t a : Cder f t a -> Cder (fun t => Copp (f t)) t (Copp a).
Proof.
  intros [A B]. split.
  - apply (is_derive_opp (fun t => fst (f t))). exact A.
  - apply (is_derive_opp (fun t => snd (f t))). exact B.
Qed.
Lemma Cder_const c t : Cder (fun _ => c) t (RtoC 0).
Proof. split; apply (is_derive_const (V := R_NormedModule)). Qed.
Lemma Cder_mult f g t a b : Cder f t a -> Cder g t b -> Cder (fun t => Cmult (f t) (g t)) t (Cplus (Cmult a (g t)) (Cmult (f t) b)).
Proof.
  intros [A B] [C D]. unfold Cmult, Cplus. split; cbn [fst snd].
  - evar_last. { apply (is_derive_minus (fun t => fst (f t) * fst (g t)) (fun t => snd (f t) * snd (g t))).
      - apply (is_derive_mult (fun t => fst (f t)) (fun t => fst (g t))); [exact A|exact C|exact Rmult_comm].
      - apply (is_derive_mult (fun t => snd (f t)) (fun t => snd (g t))); [exact B|exact D|exact Rmult_comm]. }
    change minus with Rminus. change plus with Rplus. change mult with Rmult. toR. ring.
  - evar_last. { apply (is_derive_plus (fun t => fst (f t) * snd (g t)) (fun t => snd (f t) * fst (g t))).
      - apply (is_derive_mult (fun t => fst (f t)) (fun t => snd (g t))); [exact A|exact D|exact Rmult_comm].
      - apply (is_derive_mult (fun t => snd (f t)) (fun t => fst (g t))); [exact B|exact C|exact Rmult_comm]. }
    change plus with Rplus. change mult with Rmult. toR. ring.
Qed.
Lemma Cder_ext f g t d : (forall u, f u = g u) -> Cder f t d -> Cder g t d.
Proof.
  intros E [A B]. split.
  - apply (is_derive_ext (fun t => fst (f t))); [intros u; rewrite E; reflexivity|exact A].
  - apply (is_derive_ext (fun t => snd (f t))); [intros u; rewrite E; reflexivity|exact B].
Qed.
Lemma Cder_ext_loc f g t d : locally t (fun u => f u = g u) -> Cder f t d -> Cder g t d.
Proof.
  intros E [A B]. split.
  - apply (is_derive_ext_loc (fun t => fst (f t))); [|exact A]. revert E. apply filter_imp. intros u ->. reflexivity.
  - apply (is_derive_ext_loc (fun t => snd (f t))); [|exact B]. revert E. apply filter_imp. intros u ->. reflexivity.
Qed.
Lemma Cder_unique f t a b : Cder f t a -> Cder f t b -> a = b.
Proof.
  intros [A B] [C D]. destruct a as [a1 a2], b as [b1 b2]. cbn [fst snd] in *. f_equal.
  - rewrite <- (is_derive_unique _ _ _ A). apply is_derive_unique. exact C.
  - rewrite <- (is_derive_unique _ _ _ B). apply is_derive_unique. exact D.
Qed.
Lemma Cder_eq f t a b : a = b -> Cder f t a -> Cder f t b.
Proof. intros ->. auto. Qed.
Lemma Cder_inv f t d : f t <> RtoC 0 -> Cder f t d -> Cder (fun t => Cinv (f t)) t (Copp (Cdiv d (Cmult (f t) (f t)))).
Proof.
  intros H [A B]. pose proof (Cneq_sq _ H) as Q.
  assert (E1 : Derive (fun x => fst (f x)) t = fst d) by (apply is_derive_unique; exact A).
  assert (E2 : Derive (fun x => snd (f x)) t = snd d) by (apply is_derive_unique; exact B).
  unfold Cinv. split; cbn [fst snd].
  - evar_last. { apply (is_derive_div (fun t => fst (f t)) (fun t => fst (f t) ^ 2 + snd (f t) ^ 2)).
      - exact A.
      - apply (is_derive_plus (fun t => fst (f t) ^ 2) (fun t => snd (f t) ^ 2)); apply is_derive_pow; eassumption.
      - cbn [pow]. lra. }
    change plus with Rplus. cbn [INR Nat.pred pow]. toR.
    unfold Copp, Cdiv, Cinv, Cmult. cbn [fst snd pow]. field. split; [|lra].
    apply Rgt_not_eq. match goal with |- ?u > 0 => replace u with ((fst (f t) * fst (f t) + snd (f t) * snd (f t)) * (fst (f t) * fst (f t) + snd (f t) * snd (f t))) by ring end. nra.
  - evar_last. { apply (is_derive_div (fun t => - snd (f t)) (fun t => fst (f t) ^ 2 + snd (f t) ^ 2)).
      - apply (is_derive_opp (fun t => snd (f t))). exact B.
      - apply (is_derive_plus (fun t => fst (f t) ^ 2) (fun t => snd (f t) ^ 2)); apply is_derive_pow; eassumption.
      - cbn [pow]. lra. }
    change plus with Rplus. change opp with Ropp. cbn [INR Nat.pred pow]. toR.
    unfold Copp, Cdiv, Cinv, Cmult. cbn [fst snd pow]. field. split; [|lra].
    apply Rgt_not_eq. match goal with |- ?u > 0 => replace u with ((fst (f t) * fst (f t) + snd (f t) * snd (f t)) * (fst (f t) * fst (f t) + snd (f t) * snd (f t))) by ring end. nra.
Qed.
Lemma Cder_exp t : Cder (fun t => RtoC (exp t)) t (RtoC (exp t)).
Proof. split; cbn [fst snd RtoC]; [apply is_derive_Reals, derivable_pt_lim_exp|apply (is_derive_const (V := R_NormedModule))]. Qed.
Lemma Cder_exp2 c t : Cder (fun t => RtoC (exp (c * t))) t (RtoC (c * exp (c * t))).
Proof. split; cbn [fst snd RtoC]; [auto_derive; [trivial|ring]|apply (is_derive_const (V := R_NormedModule))]. Qed.

(** polynomial along a curve *)
Lemma Cder_theta l k f t d w : f t <> RtoC 0 -> Cder f t d -> 
  Cmult w (f t) = d ->   (* logarithmic derivative w *)
  forall p q, Cder p t q -> Cmult (Cmult (RtoC k) w) (p t) = q ->
  Cder (fun t => Cmult (p t) (peval l (f t))) t (Cmult w (Cmult (p t) (peval (theta k l) (f t)))).
Proof.
  intros F D W. revert k. induction l as [|a l IH]; intros k p q P Pk.
  - cbn [peval theta]. apply (Cder_ext (fun _ => RtoC 0)); [intros u; ring|]. eapply Cder_eq; [|apply Cder_const]. ring.
  - cbn [peval theta].
    apply (Cder_ext (fun t => Cplus (Cmult (RtoC a) (p t)) (Cmult (Cmult (p t) (f t)) (peval l (f t))))); [intros u; ring|].
    eapply Cder_eq; [|apply Cder_plus].
    2:{ apply (Cder_mult (fun _ => RtoC a) p); [apply Cder_const|exact P]. }
    2:{ apply (IH (k + 1) (fun t => Cmult (p t) (f t)) (Cplus (Cmult q (f t)) (Cmult (p t) d))).
        - apply Cder_mult; assumption.
        - rewrite <- Pk, <- W, RtoC_plus. ring. }
    rewrite <- Pk, RtoC_mult. cbn [peval]. ring.
Qed.
Lemma Cder_peval l f t d w : f t <> RtoC 0 -> Cder f t d -> Cmult w (f t) = d ->
  Cder (fun t => peval l (f t)) t (Cmult w (peval (theta 0 l) (f t))).
Proof.
  intros F D W. apply (Cder_ext (fun t => Cmult (RtoC 1) (peval l (f t)))); [intros; ring|].
  eapply Cder_eq; [|apply (Cder_theta l 0 f t d w F D W (fun _ => RtoC 1) (RtoC 0) (Cder_const _ _))]; ring.
Qed.

(** u(t) = z e^(ct) / (1 - z e^(ct)) satisfies u' = c u (1+u) *)
Definition ucurve (c : R) (z : C) (t : R) : C := Cdiv (Cmult (RtoC (exp (c * t))) z) (Cminus (RtoC 1) (Cmult (RtoC (exp (c * t))) z)).
Lemma Cder_u c z t : Cminus (RtoC 1) (Cmult (RtoC (exp (c * t))) z) <> RtoC 0 ->
  Cder (ucurve c z) t (Cmult (RtoC c) (Cmult (ucurve c z t) (Cplus (RtoC 1) (ucurve c z t)))).
Proof.
  intros H. unfold ucurve at 1. unfold Cdiv.
  assert (Dx : Cder (fun t => Cmult (RtoC (exp (c * t))) z) t (Cmult (RtoC (c * exp (c * t))) z)).
  { eapply Cder_eq; [|apply (Cder_mult (fun t => RtoC (exp (c*t))) (fun _ => z)); [apply Cder_exp2|apply Cder_const]]. ring. }
  eapply Cder_eq; [|apply (Cder_mult (fun t => Cmult (RtoC (exp (c * t))) z) (fun t => Cinv (Cminus (RtoC 1) (Cmult (RtoC (exp (c * t))) z))));
     [exact Dx|apply (Cder_inv (fun t => Cminus (RtoC 1) (Cmult (RtoC (exp (c * t))) z))); [exact H|]]].
  2:{ apply (Cder_plus (fun _ => RtoC 1) (fun t => Copp (Cmult (RtoC (exp (c * t))) z))); [apply Cder_const|].
      apply Cder_opp. exact Dx. }
  unfold ucurve.
  rewrite RtoC_mult. field. exact H.
Qed.

(** d/dt Li_{-m}(z e^(ct)) = c Li_{-m-1}(z e^(ct)) *)
Lemma one_minus_loc c (z : C) : z <> RtoC 1 -> locally 0 (fun t => Cminus (RtoC 1) (Cmult (RtoC (exp (c * t))) z) <> RtoC 0).
Proof.
  intros H. pose proof (one_minus_neq z H) as D. pose proof (Cneq_sq _ D) as Q.
  set (g := fun t => (1 - exp (c * t) * fst z) * (1 - exp (c * t) * fst z) + (exp (c * t) * snd z) * (exp (c * t) * snd z)).
  assert (G0 : 0 < g 0).
  { unfold g. rewrite Rmult_0_r, exp_0. unfold Cminus, Cplus, Copp, RtoC in Q. cbn [fst snd] in Q. nra. }
  assert (Cg : continuous g 0).
  { apply (ex_derive_continuous g). unfold g. auto_derive. trivial. }
  pose proof (Cg (fun v => 0 < v) (open_gt 0 (g 0) G0)) as L. unfold filtermap in L. revert L. apply filter_imp.
  intros t Ht E. unfold g in Ht. rewrite rescale in E. injection E as E1 E2.
  rewrite E1 in Ht. assert (exp (c * t) * snd z = 0) by lra. rewrite H0 in Ht. lra.
Qed.
Lemma Cder_Li_neg m c (z : C) : z <> RtoC 0 -> z <> RtoC 1 ->
  Cder (fun t => Li_neg m (Cmult (RtoC (exp (c * t))) z)) 0 (Cmult (RtoC c) (Li_neg (S m) z)).
Proof.
  intros Z0 Z1. unfold Li_neg. pose proof (one_minus_neq z Z1) as D.
  assert (E0 : RtoC (exp (c * 0)) = RtoC 1) by (rewrite Rmult_0_r, exp_0; reflexivity).
  assert (U0 : ucurve c z 0 = Cdiv z (Cminus (RtoC 1) z)).
  { unfold ucurve. rewrite E0. replace (Cmult (RtoC 1) z) with z by ring. reflexivity. }
  assert (UN : ucurve c z 0 <> RtoC 0).
  { rewrite U0. unfold Cdiv. apply Cmult_neq_0; [exact Z0|]. intros E. apply (f_equal (Cmult (Cminus (RtoC 1) z))) in E.
    rewrite Cinv_r in E by exact D. rewrite Cmult_0_r in E. injection E. lra. }
  eapply Cder_eq; [|apply (Cder_peval (Qpoly m) (ucurve c z) 0 (Cmult (RtoC c) (Cmult (ucurve c z 0) (Cplus (RtoC 1) (ucurve c z 0)))) (Cmult (RtoC c) (Cplus (RtoC 1) (ucurve c z 0))) UN)].
  2:{ apply Cder_u. rewrite E0. replace (Cmult (RtoC 1) z) with z by ring. exact D. }
  2: ring.
  rewrite <- U0. cbn [Qpoly]. cbv zeta. rewrite peval_ladd. cbn [peval]. ring.
Qed.

(** ** duplication: Li_{-m}(s) + Li_{-m}(-s) = 2^(m+1) Li_{-m}(s^2) *)
Theorem duplication m : forall s : C, s <> RtoC 0 -> s <> RtoC 1 -> s <> RtoC (-1) ->
  Cplus (Li_neg m s) (Li_neg m (Copp s)) = Cmult (RtoC (2 ^ S m)) (Li_neg m (Cmult s s)).
Proof.
  induction m as [|m IH]; intros s S0 S1 Sm.
  - unfold Li_neg. cbn [Qpoly peval].
    pose proof (one_minus_neq s S1) as D1.
    assert (Nm : Copp s <> RtoC 1).
    { intros E. apply Sm. replace s with (Copp (Copp s)) by ring. rewrite E. unfold Copp, RtoC. cbn. f_equal; ring. }
    pose proof (one_minus_neq _ Nm) as D2.
    assert (D2' : Cplus (RtoC 1) s <> RtoC 0) by (intros E; apply D2; rewrite <- E; ring).
    assert (D3 : Cminus (RtoC 1) (Cmult s s) <> RtoC 0).
    { replace (Cminus (RtoC 1) (Cmult s s)) with (Cmult (Cminus (RtoC 1) s) (Cplus (RtoC 1) s)) by ring. apply Cmult_neq_0; assumption. }
    replace (2 ^ 1) with (1 + 1) by ring. rewrite RtoC_plus. field. repeat split; assumption.
  - assert (SS0 : Cmult s s <> RtoC 0) by (apply Cmult_neq_0; exact S0).
    assert (SS1 : Cmult s s <> RtoC 1).
    { intros E. assert (F : Cmult (Cminus s (RtoC 1)) (Cplus s (RtoC 1)) = RtoC 0) by (replace (Cmult (Cminus s (RtoC 1)) (Cplus s (RtoC 1))) with (Cminus (Cmult s s) (RtoC 1)) by ring; rewrite E; ring).
      revert F. apply Cmult_neq_0.
      - intros F. apply S1. replace s with (Cplus (Cminus s (RtoC 1)) (RtoC 1)) by ring. rewrite F. ring.
      - intros F. apply Sm. replace s with (Cminus (Cplus s (RtoC 1)) (RtoC 1)) by ring. rewrite F. unfold Cminus, Cplus, Copp, RtoC. cbn. f_equal; ring. }
    assert (M0 : Copp s <> RtoC 0) by (intros E; apply S0; replace s with (Copp (Copp s)) by ring; rewrite E; ring).
    assert (M1 : Copp s <> RtoC 1).
    { intros E. apply Sm. replace s with (Copp (Copp s)) by ring. rewrite E. unfold Copp, RtoC. cbn. f_equal; ring. }
    pose proof (Cder_plus _ _ _ _ _ (Cder_Li_neg m 1 s S0 S1) (Cder_Li_neg m 1 (Copp s) M0 M1)) as DL.
    pose proof (Cder_mult (fun _ => RtoC (2 ^ S m)) _ 0 _ _ (Cder_const _ 0) (Cder_Li_neg m 2 (Cmult s s) SS0 SS1)) as DR.
    assert (EQ : locally 0 (fun t => Cplus (Li_neg m (Cmult (RtoC (exp (1 * t))) s)) (Li_neg m (Cmult (RtoC (exp (1 * t))) (Copp s)))
        = Cmult (RtoC (2 ^ S m)) (Li_neg m (Cmult (RtoC (exp (2 * t))) (Cmult s s))))).
    { pose proof (one_minus_loc 1 s S1) as L1. pose proof (one_minus_loc 1 (Copp s) M1) as L2.
      generalize (filter_and _ _ L1 L2). apply filter_imp. intros t [T1 T2].
      set (x := Cmult (RtoC (exp (1 * t))) s) in *.
      replace (Cmult (RtoC (exp (1 * t))) (Copp s)) with (Copp x) in * by (unfold x; ring).
      rewrite IH.
      - do 2 f_equal. unfold x. replace (2 * t) with (1 * t + 1 * t) by ring. rewrite exp_plus, RtoC_mult. ring.
      - unfold x. apply Cmult_neq_0; [|exact S0]. intros E. injection E. pose proof (exp_pos (1 * t)). lra.
      - intros E. apply T1. rewrite E. ring.
      - intros E. apply T2. rewrite E. unfold Cminus, Cplus, Copp, RtoC. cbn. f_equal; ring. }
    pose proof (Cder_unique _ _ _ _ (Cder_ext_loc _ _ _ _ EQ DL) DR) as K. cbv beta in K.
    replace (Cplus (Li_neg (S m) s) (Li_neg (S m) (Copp s))) with (Cplus (Cmult (RtoC 1) (Li_neg (S m) s)) (Cmult (RtoC 1) (Li_neg (S m) (Copp s)))) by ring.
    rewrite K. replace (2 ^ S (S m)) with (2 ^ S m * 2) by (cbn [pow]; ring). rewrite RtoC_mult. ring.
Qed.

(** ** inside the unit disk Li_{-m}(z) = sum_k k^m z^k *)
Definition lscal (c : R) (l : list R) : list R := map (fun a => c * a) l.
Lemma peval_lscal c l u : peval (lscal c l) u = Cmult (RtoC c) (peval l u).
Proof. induction l as [|a l IH]; cbn [lscal map peval]; [ring|]. fold (lscal c l). rewrite IH, RtoC_mult. ring. Qed.
(** remainder polynomial after K terms *)
Fixpoint Rpoly (K : nat) (m : nat) : list R :=
  match m with
  | O => [1; 1]
  | S m' => let t := theta 0 (Rpoly K m') in ladd (ladd t (0 :: t)) (lscal (INR (S K)) (Rpoly K m'))
  end.
Definition negterm (m : nat) (z : C) (k : nat) : C := Cmult (RtoC (INR (S k) ^ m)) (Cpow z (S k)).

Lemma Cpow_exp c (z : C) k : Cpow (Cmult (RtoC (exp c)) z) k = Cmult (RtoC (exp (INR k * c))) (Cpow z k).
Proof.
  induction k as [|k IH]; [cbn [Cpow INR]; rewrite Rmult_0_l, exp_0; ring|].
  cbn [Cpow]. rewrite IH, S_INR. replace ((INR k + 1) * c) with (c + INR k * c) by ring. rewrite exp_plus, RtoC_mult. ring.
Qed.
Lemma Cder_pow (z : C) k : Cder (fun t => Cpow (Cmult (RtoC (exp (1 * t))) z) k) 0 (Cmult (RtoC (INR k)) (Cpow z k)).
Proof.
  apply (Cder_ext (fun t => Cmult (RtoC (exp (INR k * t))) (Cpow z k))); [intros t; rewrite Rmult_1_l, Cpow_exp; reflexivity|].
  eapply Cder_eq; [|apply (Cder_mult (fun t => RtoC (exp (INR k * t))) (fun _ => Cpow z k)); [apply Cder_exp2|apply Cder_const]].
  rewrite Rmult_0_r, exp_0, Rmult_1_r. ring.
Qed.
Lemma Cder_sum (f : nat -> R -> C) (d : nat -> C) K : (forall k, Cder (f k) 0 (d k)) -> Cder (fun t => Csum (fun k => f k t) K) 0 (Csum d K).
Proof. intros H. induction K as [|K IH]; [exact (Cder_const (RtoC 0) 0)|]. cbn [Csum]. apply Cder_plus; [exact IH|apply H]. Qed.

Lemma Li_neg_split K m : forall z : C, z <> RtoC 0 -> z <> RtoC 1 ->
  Li_neg m z = Cplus (Csum (negterm m z) K) (Cmult (Cpow z (S K)) (peval (Rpoly K m) (Cdiv z (Cminus (RtoC 1) z)))).
Proof.
  induction m as [|m IH]; intros z Z0 Z1; pose proof (one_minus_neq z Z1) as D.
  - unfold Li_neg. cbn [Qpoly Rpoly peval].
    assert (E : Csum (negterm 0 z) K = Cdiv (Cminus z (Cpow z (S K))) (Cminus (RtoC 1) z)).
    { rewrite <- geom_sum. rewrite (Csum_ext (negterm 0 z) (fun k => Cpow z (S k))).
      - field. exact D.
      - intros i. unfold negterm. change (INR (S i) ^ 0) with 1. ring. }
    rewrite E. field. exact D.
  - (* differentiate at t = 0 *)
    pose proof (Cder_Li_neg m 1 z Z0 Z1) as DL.
    assert (E0 : RtoC (exp (1 * 0)) = RtoC 1) by (rewrite Rmult_0_r, exp_0; reflexivity).
    assert (E1 : Cmult (RtoC (exp (1 * 0))) z = z) by (rewrite E0; ring).
    assert (U0 : ucurve 1 z 0 = Cdiv z (Cminus (RtoC 1) z)) by (unfold ucurve; rewrite E1; reflexivity).
    assert (UN : ucurve 1 z 0 <> RtoC 0).
    { rewrite U0. unfold Cdiv. apply Cmult_neq_0; [exact Z0|]. intros E. apply (f_equal (Cmult (Cminus (RtoC 1) z))) in E.
      rewrite Cinv_r in E by exact D. rewrite Cmult_0_r in E. injection E. lra. }
    assert (DS : Cder (fun t => Csum (negterm m (Cmult (RtoC (exp (1 * t))) z)) K) 0 (Csum (negterm (S m) z) K)).
    { apply (Cder_sum (fun k t => negterm m (Cmult (RtoC (exp (1 * t))) z) k)). intros k. unfold negterm.
      eapply Cder_eq; [|apply (Cder_mult (fun _ => RtoC (INR (S k) ^ m)) (fun t => Cpow (Cmult (RtoC (exp (1 * t))) z) (S k))); [apply Cder_const|apply Cder_pow]].
      change (INR (S k) ^ S m) with (INR (S k) * INR (S k) ^ m). rewrite RtoC_mult. ring. }
    assert (DR : Cder (fun t => peval (Rpoly K m) (ucurve 1 z t)) 0 (Cmult (Cplus (RtoC 1) (ucurve 1 z 0)) (peval (theta 0 (Rpoly K m)) (ucurve 1 z 0)))).
    { apply (Cder_peval (Rpoly K m) (ucurve 1 z) 0 (Cmult (RtoC 1) (Cmult (ucurve 1 z 0) (Cplus (RtoC 1) (ucurve 1 z 0)))) (Cplus (RtoC 1) (ucurve 1 z 0)) UN).
      - apply Cder_u. rewrite E1. exact D.
      - ring. }
    pose proof (Cder_plus _ _ _ _ _ DS (Cder_mult _ _ _ _ _ (Cder_pow z (S K)) DR)) as DT. cbv beta in DT.
    assert (EQ : locally 0 (fun t => Li_neg m (Cmult (RtoC (exp (1 * t))) z) = Cplus (Csum (negterm m (Cmult (RtoC (exp (1 * t))) z)) K) (Cmult (Cpow (Cmult (RtoC (exp (1 * t))) z) (S K)) (peval (Rpoly K m) (ucurve 1 z t))))).
    { pose proof (one_minus_loc 1 z Z1) as L1. revert L1. apply filter_imp. intros t T1. unfold ucurve. apply IH.
      - apply Cmult_neq_0; [|exact Z0]. intros E. injection E. pose proof (exp_pos (1 * t)). lra.
      - intros E. apply T1. rewrite E. ring. }
    pose proof (Cder_unique _ _ _ _ (Cder_ext_loc _ _ _ _ EQ DL) DT) as Q.
    replace (Li_neg (S m) z) with (Cmult (RtoC 1) (Li_neg (S m) z)) by ring. rewrite Q. rewrite E1, U0.
    cbn [Rpoly]. cbv zeta. rewrite !peval_ladd, peval_lscal. cbn [peval]. ring.
Qed.

(** size of the remainder *)
Fixpoint labs (l : list R) (r : R) : R := match l with [] => 0 | a :: l' => Rabs a + r * labs l' r end.
Lemma labs_pos l r : 0 <= r -> 0 <= labs l r.
Proof. intros H. induction l as [|a l IH]; cbn; [lra|]. pose proof (Rabs_pos a). nra. Qed.
Lemma peval_labs l u : Cmod (peval l u) <= labs l (Cmod u).
Proof.
  induction l as [|a l IH]; cbn [peval labs]; [rewrite Cmod_0; lra|].
  eapply Rle_trans; [apply Cmod_triangle|]. rewrite Cmod_R, Cmod_mult. pose proof (Cmod_ge_0 u). nra.
Qed.
Lemma labs_ladd l m r : 0 <= r -> labs (ladd l m) r <= labs l r + labs m r.
Proof.
  intros H. revert m. induction l as [|a l IH]; intros m; [cbn; lra|]. destruct m as [|b m]; [cbn; lra|].
  cbn [ladd labs]. specialize (IH m). pose proof (Rabs_triang a b). nra.
Qed.
Lemma labs_lscal c l r : labs (lscal c l) r = Rabs c * labs l r.
Proof. induction l as [|a l IH]; cbn [lscal map labs]; [ring|]. fold (lscal c l). rewrite IH, Rabs_mult. ring. Qed.
Lemma labs_theta l k r : 0 <= r -> 0 <= k -> labs (theta k l) r <= (k + INR (length l)) * labs l r.
Proof.
  intros H. revert k. induction l as [|a l IH]; intros k Hk; [cbn; lra|].
  cbn [theta labs]. change (length (a :: l)) with (S (length l)). rewrite S_INR. rewrite Rabs_mult, (Rabs_pos_eq k) by lra.
  specialize (IH (k + 1) ltac:(lra)). pose proof (Rabs_pos a). pose proof (labs_pos l r H). pose proof (pos_INR (length l)).
  assert (0 <= (1 + INR (length l)) * Rabs a) by (apply Rmult_le_pos; lra).
  assert (r * labs (theta (k + 1) l) r <= r * ((k + 1 + INR (length l)) * labs l r)) by (apply Rmult_le_compat_l; assumption). nra.
Qed.
Lemma ladd_length l m : length (ladd l m) = max (length l) (length m).
Proof. revert m. induction l as [|a l IH]; intros [|b m]; cbn [ladd length]; try lia. rewrite IH. lia. Qed.
Lemma theta_length k l : length (theta k l) = length l.
Proof. revert k. induction l as [|a l IH]; intros k; cbn; [reflexivity|]. rewrite IH. reflexivity. Qed.
Lemma Rpoly_length K m : length (Rpoly K m) = (m + 2)%nat.
Proof.
  induction m as [|m IH]; [reflexivity|]. cbn [Rpoly]. cbv zeta. rewrite !ladd_length. cbn [length]. rewrite theta_length.
  unfold lscal. rewrite map_length, IH. lia.
Qed.
Lemma Rpoly_bound K m r : 0 <= r -> labs (Rpoly K m) r <= ((INR m + 2) * (1 + r) + 1) ^ m * INR (S K) ^ m * (1 + r).
Proof.
  intros Hr.
  assert (G : forall c, 1 <= c -> (forall j, (j < m)%nat -> (INR j + 2) * (1 + r) + 1 <= c) -> forall j, (j <= m)%nat -> labs (Rpoly K j) r <= c ^ j * INR (S K) ^ j * (1 + r)).
  { intros c Hc1 Hc. induction j as [|j IH]; intros Hj.
    - cbn [Rpoly labs pow]. rewrite !Rabs_R1. lra.
    - specialize (IH ltac:(lia)). specialize (Hc j ltac:(lia)).
      cbn [Rpoly]. cbv zeta. set (t := theta 0 (Rpoly K j)).
      pose proof (labs_ladd (ladd t (0 :: t)) (lscal (INR (S K)) (Rpoly K j)) r Hr) as A.
      pose proof (labs_ladd t (0 :: t) r Hr) as B. cbn [labs] in B. rewrite Rabs_R0 in B.
      rewrite labs_lscal, (Rabs_pos_eq (INR (S K))) in A by apply pos_INR.
      pose proof (labs_theta (Rpoly K j) 0 r Hr ltac:(lra)) as T. fold t in T. rewrite Rpoly_length, plus_INR in T. cbn [INR] in T.
      set (P := labs (Rpoly K j) r) in *. assert (P0 : 0 <= P) by (apply labs_pos; exact Hr).
      assert (K1 : 1 <= INR (S K)) by (rewrite S_INR; pose proof (pos_INR K); lra).
      pose proof (labs_pos t r Hr) as T0.
      assert (X : (1 + r) * labs t r <= (1 + r) * ((INR j + 2) * P)) by (apply Rmult_le_compat_l; lra).
      apply Rle_trans with (c * INR (S K) * P).
      + set (k := INR (S K)) in *. assert (Y : (1 + r) * ((INR j + 2) * P) + k * P <= c * k * P).
        { replace ((1 + r) * ((INR j + 2) * P) + k * P) with (((INR j + 2) * (1 + r) + k) * P) by ring.
          apply Rmult_le_compat_r; [exact P0|]. pose proof (pos_INR j). set (q := (INR j + 2) * (1 + r)) in *. assert (0 <= q) by (apply Rmult_le_pos; lra). nra. }
        lra.
      + replace (c ^ S j * INR (S K) ^ S j * (1 + r)) with (c * INR (S K) * (c ^ j * INR (S K) ^ j * (1 + r))) by (cbn [pow]; ring).
        apply Rmult_le_compat_l; [|exact IH]. apply Rmult_le_pos; lra. }
  apply (G ((INR m + 2) * (1 + r) + 1)); [| |lia].
  - pose proof (pos_INR m). assert (0 <= (INR m + 2) * (1 + r)) by (apply Rmult_le_pos; lra). lra.
  - intros j Hj. apply lt_INR in Hj. nra.
Qed.
(** n^m r^n -> 0 *)
Lemma lim_powpow m : forall r, 0 <= r < 1 -> is_lim_seq (fun n => INR (S n) ^ m * r ^ S n) 0.
Proof.
  induction m as [|m IH]; intros r H.
  - apply (is_lim_seq_ext (fun n => r ^ S n)); [intros n; cbn [pow]; ring|]. apply (is_lim_seq_incr_1 (fun n => r ^ n)). apply lim_pow. exact H.
  - set (s := sqrt r). assert (Hs : 0 <= s < 1). { split; [apply sqrt_pos|]. unfold s. rewrite <- sqrt_1. apply sqrt_lt_1; lra. }
    assert (E : r = s * s) by (unfold s; rewrite sqrt_sqrt; lra).
    apply (is_lim_seq_ext (fun n => (INR (S n) ^ m * s ^ S n) * (INR (S n) * s ^ S n))).
    { intros n. rewrite E. rewrite (Rpow_mult_distr s s (S n)). change (INR (S n) ^ S m) with (INR (S n) * INR (S n) ^ m). ring. }
    replace (Finite 0) with (Rbar_mult 0 0) by (cbn; f_equal; ring).
    apply is_lim_seq_mult'; [apply IH; exact Hs|]. apply (is_lim_seq_incr_1 (fun n => INR n * s ^ n)). apply lim_npow. exact Hs.
Qed.
Theorem Li_neg_series m (z : C) : Cmod z < 1 -> Csums (negterm m z) (Li_neg m z).
Proof.
  intros H. destruct (Ceq_dec z (RtoC 0)) as [->|Z0].
  { apply (Csums_bound _ _ (fun _ => 0)); [|apply is_lim_seq_const]. intros K.
    assert (Csum (negterm m (RtoC 0)) K = RtoC 0) as ->.
    { induction K as [|K IH]; [reflexivity|]. cbn [Csum]. rewrite IH. unfold negterm. cbn [Cpow]. ring. }
    assert (Li_neg m (RtoC 0) = RtoC 0) as ->; [|right; replace (Cminus (RtoC 0) (RtoC 0)) with (RtoC 0) by ring; apply Cmod_0].
    unfold Li_neg. replace (Cdiv (RtoC 0) (Cminus (RtoC 1) (RtoC 0))) with (RtoC 0) by (unfold Cdiv; ring).
    assert (G : forall m, exists l, Qpoly m = 0 :: l).
    { clear. induction m as [|m [l IH]]; [eexists; reflexivity|]. cbn [Qpoly]. cbv zeta. rewrite IH. cbn [theta ladd]. eexists. f_equal. ring. }
    destruct (G m) as [l ->]. cbn [peval]. ring. }
  pose proof (Cmod_lt1_neq z H) as Z1. set (u := Cdiv z (Cminus (RtoC 1) z)). pose proof (Cmod_ge_0 z) as M0. pose proof (Cmod_ge_0 u) as U0.
  set (cst := ((INR m + 2) * (1 + Cmod u) + 1) ^ m * (1 + Cmod u)).
  apply (Csums_bound _ _ (fun K => cst * (INR (S K) ^ m * Cmod z ^ S K))).
  - intros K. rewrite (Li_neg_split K m z Z0 Z1). fold u.
    replace (Cminus _ _) with (Copp (Cmult (Cpow z (S K)) (peval (Rpoly K m) u))) by ring.
    rewrite Cmod_opp, Cmod_mult, Cpow_mod.
    pose proof (peval_labs (Rpoly K m) u) as A. pose proof (Rpoly_bound K m (Cmod u) U0) as B.
    assert (0 <= Cmod z ^ S K) by (apply pow_le; exact M0). unfold cst.
    set (P := Cmod z ^ S K) in *. set (V := Cmod (peval (Rpoly K m) u)) in *.
    apply Rle_trans with (P * (((INR m + 2) * (1 + Cmod u) + 1) ^ m * INR (S K) ^ m * (1 + Cmod u))); [apply Rmult_le_compat_l; lra|right; ring].
  - replace (Finite 0) with (Rbar_mult cst 0) by (cbn; f_equal; ring). apply is_lim_seq_scal_l. apply lim_powpow. lra.
Qed.
