(** * The inversion formula of the complex polylogarithm, every order. Nothing here mentions the code. *)
From Coq Require Import ZArith Reals List Bool Lra Lia Psatz.
From Coquelicot Require Import Coquelicot.
From Verif Require Import NumR Spec Cplx Clog_series Chain Polylog Fourier Ccalc CLi CLi_disc Unity Rest.
Local Open Scope R_scope.

Lemma Csum_shift f n : Csum f (S n) = Cplus (f O) (Csum (fun m => f (S m)) n).
Proof. induction n as [|n IH]; [cbn; ring|]. change (Csum f (S (S n))) with (Cplus (Csum f (S n)) (f (S n))). rewrite IH. cbn [Csum]. ring. Qed.
Lemma Csum_der (f : nat -> R -> C) (d : nat -> C) t n : (forall m, (m < n)%nat -> cder (f m) t (d m)) -> cder (fun s => Csum (fun m => f m s) n) t (Csum d n).
Proof.
  intros H. induction n as [|n IH]; cbn [Csum]; [apply cder_const|].
  apply (cder_plus (fun s => Csum (fun m => f m s) n) (f n)); [apply IH; intros; apply H; lia|apply H; lia].
Qed.
Lemma Csum_scal c f n : Cmult c (Csum f n) = Csum (fun m => Cmult c (f m)) n.
Proof. induction n as [|n IH]; cbn [Csum]; [ring|]. rewrite <- IH. ring. Qed.
Lemma restC_der c n (L : R -> C) t d : cder L t d -> cder (fun s => restC c inv_fact (S n) (L s)) t (Cmult d (restC c inv_fact n (L t))).
Proof.
  intros D.
  apply (cder_ext (fun s => Cplus (RtoC (gam c (S n) * inv_fact 0)) (Csum (fun m => Cmult (RtoC (gam c (n - m) * inv_fact (S m))) (Cpow (L s) (S m))) (S n)))).
  - intros s. unfold restC. rewrite (Csum_shift _ (S n)). f_equal. cbn [Cpow Nat.sub]. ring.
  - eapply cder_eq; [|apply (cder_plus (fun _ => RtoC (gam c (S n) * inv_fact 0))); [apply cder_const|]].
    2:{ apply (Csum_der (fun m s => Cmult (RtoC (gam c (n - m) * inv_fact (S m))) (Cpow (L s) (S m)))
        (fun m => Cmult d (Cmult (RtoC (gam c (n - m) * inv_fact m)) (Cpow (L t) m)))).
      intros m Hm. eapply cder_eq; [|apply cder_scal, cder_pow; exact D].
      replace (gam c (n - m) * inv_fact m) with (gam c (n - m) * inv_fact (S m) * INR (S m)).
      - rewrite !RtoC_mult. ring.
      - unfold inv_fact. rewrite fact_simpl, mult_INR. field. split; [apply INR_fact_neq_0|apply not_0_INR; lia]. }
    rewrite <- Csum_scal. unfold restC. ring.
Qed.

Lemma Cexp_slit s y : 0 < y < 2 * PI -> slit (Cexp (s, y)).
Proof.
  intros H. destruct (Req_dec (sin y) 0) as [E|E].
  - left. unfold Cexp. cbn [fst snd]. apply sin_eq_0_0 in E. destruct E as [k E]. pose proof PI_RGT_0.
    assert (0 < IZR k < 2) as [K1 K2] by (split; apply Rmult_lt_reg_r with PI; lra). apply lt_IZR in K1, K2. assert (k = 1%Z) by lia. subst k.
    replace y with PI by lra. rewrite cos_PI. pose proof (exp_pos s). lra.
  - right. unfold Cexp. cbn [fst snd]. pose proof (exp_pos s). intros F. apply Rmult_integral in F. destruct F; [lra|contradiction].
Qed.
Lemma Cexp_period s y : Cexp (s, - y) = Cexp (s, 2 * PI - y).
Proof. unfold Cexp. cbn [fst snd]. rewrite cos_neg, sin_neg, cos_minus, sin_minus, cos_2PI, sin_2PI. f_equal; ring. Qed.
Lemma CLi_circle_der1 y : 0 < y < 2 * PI -> cder (fun y => CLi 1 (Cexp (0, y))) y (Cmult Ci (CLi 0 (Cexp (0, y)))).
Proof.
  intros H. pose proof (Cexp_slit 0 y H) as SL. pose proof (slit_1m _ SL) as O. pose proof (offneg_neq _ O) as N.
  cbn [CLi]. assert (D : cder (fun s => ((0, s) : C)) y Ci).
  { split; cbn [fst snd Ci]; [apply (is_derive_const 0)|apply is_derive_idR]. }
  eapply cder_eq; [|apply cder_opp; apply cder_Clog; [exact O|]; apply (cder_minus (fun _ => RtoC 1) (fun s => Cexp (0, s))); [apply cder_const|apply (cder_Cexp (fun s => ((0, s) : C))); exact D]].
  cbv beta. field. exact N.
Qed.
Lemma CLi_circle_der' n y : 0 < y < 2 * PI -> cder (fun y => CLi (S n) (Cexp (0, y))) y (Cmult Ci (CLi n (Cexp (0, y)))).
Proof. intros H. destruct n; [apply CLi_circle_der1; exact H|apply CLi_circle_der; [exact H|lia]]. Qed.

Definition Dinv (n : nat) (s y : R) : C :=
  Cminus (Cplus (CLi n (Cexp (s, y))) (Cmult (RtoC ((-1) ^ n)) (CLi n (Cexp (- s, 2 * PI - y))))) (restC neg_eta_true inv_fact n (s, y - PI)).
Lemma Cexp_inv s y : Cmult (Cexp (s, y)) (Cexp (- s, 2 * PI - y)) = RtoC 1.
Proof. rewrite <- Cexp_period, <- Cexp_plus. unfold Cplus, Cexp, RtoC. cbn [fst snd]. replace (s + - s) with 0 by ring. replace (y + - y) with 0 by ring. rewrite exp_0, cos_0, sin_0. f_equal; ring. Qed.
Lemma Dinv_0 s y : 0 < y < 2 * PI -> Dinv 0 s y = RtoC 0.
Proof.
  intros H. unfold Dinv. cbn [CLi pow]. pose proof (Cexp_inv s y) as I.
  pose proof (slit_1m _ (Cexp_slit s y H)) as O1. apply offneg_neq in O1.
  pose proof (slit_1m _ (Cexp_slit (- s) (2 * PI - y) ltac:(lra))) as O2. apply offneg_neq in O2.
  set (z := Cexp (s, y)) in *. set (w := Cexp (- s, 2 * PI - y)) in *.
  assert (R0 : restC neg_eta_true inv_fact 0 (s, y - PI) = RtoC (-1)).
  { unfold restC. cbn [Csum Nat.sub Cpow]. unfold gam, inv_fact. cbn. rewrite Cplus_0_l, Cmult_1_r. f_equal. field. }
  rewrite R0.
  assert (E : Cplus (Cdiv z (Cminus (RtoC 1) z)) (Cdiv w (Cminus (RtoC 1) w)) = RtoC (-1)).
  { replace (Cplus (Cdiv z (Cminus (RtoC 1) z)) (Cdiv w (Cminus (RtoC 1) w))) with (Cdiv (Cminus (Cplus z w) (Cplus (Cmult z w) (Cmult z w))) (Cmult (Cminus (RtoC 1) z) (Cminus (RtoC 1) w))) by (field; split; assumption).
    replace (Cmult (Cminus (RtoC 1) z) (Cminus (RtoC 1) w)) with (Cminus (Cplus (RtoC 1) (Cmult z w)) (Cplus z w)) by ring.
    assert (NN : Cmult (Cminus (RtoC 1) z) (Cminus (RtoC 1) w) <> RtoC 0) by (apply Cmult_neq_0; assumption).
    replace (Cmult (Cminus (RtoC 1) z) (Cminus (RtoC 1) w)) with (Cminus (Cplus (RtoC 1) (Cmult z w)) (Cplus z w)) in NN by ring.
    rewrite I in *. replace (RtoC (-1)) with (Copp (RtoC 1)) by (rewrite <- RtoC_opp; f_equal; ring).
    field. exact NN. }
  rewrite Cmult_1_l, E. ring.
Qed.
Lemma Dinv_s n s y : 0 < y < 2 * PI -> cder (fun s => Dinv (S n) s y) s (Dinv n s y).
Proof.
  intros H. unfold Dinv. eapply cder_eq; [|apply cder_minus; [apply cder_plus; [apply CLi_der_log, Cexp_slit; exact H|apply cder_scal]|apply (restC_der _ n (fun s => ((s, y - PI) : C)) s (RtoC 1))]].
  3:{ split; cbn [fst snd RtoC]; [apply is_derive_idR|apply (is_derive_const (y - PI))]. }
  2:{ apply (cder_comp (fun s => CLi (S n) (Cexp (s, 2 * PI - y))) (fun s => - s) s (CLi n (Cexp (- s, 2 * PI - y))) (-1)).
      - auto_derive; [trivial|ring].
      - apply CLi_der_log, Cexp_slit. lra. }
  cbv beta. cbn [pow]. rewrite RtoC_mult. replace (RtoC (-1)) with (Copp (RtoC 1)) by (rewrite <- RtoC_opp; f_equal; ring). ring.
Qed.
Lemma Dinv_y n y : 0 < y < 2 * PI -> cder (fun y => Dinv (S n) 0 y) y (Cmult Ci (Dinv n 0 y)).
Proof.
  intros H. unfold Dinv. rewrite Ropp_0.
  eapply cder_eq; [|apply cder_minus; [apply cder_plus; [apply CLi_circle_der'; exact H|apply cder_scal]|apply (restC_der _ n (fun y => ((0, y - PI) : C)) y Ci)]].
  3:{ split; cbn [fst snd Ci]; [apply (is_derive_const 0)|]. auto_derive; [trivial|ring]. }
  2:{ apply (cder_comp (fun y => CLi (S n) (Cexp (0, y))) (fun y => 2 * PI - y) y (Cmult Ci (CLi n (Cexp (0, 2 * PI - y)))) (-1)).
      - auto_derive; [trivial|ring].
      - apply CLi_circle_der'. lra. }
  cbv beta. cbn [pow]. rewrite RtoC_mult. replace (RtoC (-1)) with (Copp (RtoC 1)) by (rewrite <- RtoC_opp; f_equal; ring). ring.
Qed.
Lemma Dinv_PI n : (1 <= n)%nat -> Dinv n 0 PI = RtoC 0.
Proof.
  intros Hn. unfold Dinv. replace (2 * PI - PI) with PI by ring. rewrite Ropp_0.
  replace (Cexp (0, PI)) with (RtoC (-1)) by (unfold Cexp; cbn [fst snd]; rewrite exp_0, cos_PI, sin_PI; unfold RtoC; f_equal; ring).
  rewrite CLi_real by (assumption || lra). replace (((0, PI - PI)) : C) with (RtoC 0) by (unfold RtoC; f_equal; ring). rewrite restC_real.
  pose proof (inversion n (-1) Hn ltac:(lra)) as I. replace (/ -1) with (-1) in I by field. replace (- -1) with 1 in I by ring. rewrite ln_1 in I. rewrite <- I.
  rewrite RtoC_plus, RtoC_mult. ring.
Qed.
Theorem Dinv_zero n : forall s y, 0 < y < 2 * PI -> Dinv n s y = RtoC 0.
Proof.
  induction n as [|n IH]; [intros; apply Dinv_0; assumption|].
  assert (Y0 : forall y, 0 < y < 2 * PI -> Dinv (S n) 0 y = RtoC 0).
  { intros y H. rewrite <- (Dinv_PI (S n)) by lia. pose proof PI_RGT_0.
    assert (D : forall t, 0 < t < 2 * PI -> cder (fun y => Dinv (S n) 0 y) t (RtoC 0)).
    { intros t Ht. eapply cder_eq; [|apply Dinv_y; exact Ht]. rewrite IH by exact Ht. ring. }
    destruct (Rle_dec y PI).
    - symmetry. apply (cconst (fun y => Dinv (S n) 0 y)); [lra|intros; apply D; lra|intros; eapply cder_cont; apply D; lra].
    - apply (cconst (fun y => Dinv (S n) 0 y)); [lra|intros; apply D; lra|intros; eapply cder_cont; apply D; lra]. }
  intros s y H. rewrite <- (Y0 y H).
  assert (D : forall t, cder (fun s => Dinv (S n) s y) t (RtoC 0)).
  { intros t. eapply cder_eq; [|apply Dinv_s; exact H]. apply IH; exact H. }
  destruct (Rle_dec s 0).
  - symmetry. apply (cconst (fun s => Dinv (S n) s y)); [lra|intros; apply D|intros; eapply cder_cont; apply D].
  - apply (cconst (fun s => Dinv (S n) s y)); [lra|intros; apply D|intros; eapply cder_cont; apply D].
Qed.
(** Li_n(z) + (-1)^n Li_n(1/z) for z outside [0, +oo) *)
Theorem CLi_inversion n (z : C) : fst z < 0 \/ snd z <> 0 ->
  Cplus (CLi n z) (Cmult (RtoC ((-1) ^ n)) (CLi n (Cinv z))) = restC neg_eta_true inv_fact n (Clog (Copp z)).
Proof.
  intros H.
  assert (O : offneg (Copp z)) by (unfold offneg, Copp; cbn; destruct H; [left|right]; lra).
  pose proof (offneg_neq _ O) as N. destruct (Clog_spec _ N) as [E R]. set (w := Clog (Copp z)) in *. destruct w as [s a] eqn:W.
  cbn [snd] in R. pose proof PI_RGT_0.
  assert (A : a < PI).
  { destruct (Req_dec a PI) as [->|]; [|lra]. exfalso. unfold Cexp in E. cbn [fst snd] in E. rewrite cos_PI, sin_PI in E. pose proof (exp_pos s).
    apply (f_equal Copp) in E. unfold Copp in E. destruct z as [x y]. cbn [fst snd] in *. injection E as E1 E2. destruct H; lra. }
  assert (Ez : z = Cexp (s, a + PI)).
  { replace z with (Copp (Copp z)) by (destruct z; unfold Copp; cbn; f_equal; ring). rewrite <- E. unfold Cexp, Copp. cbn [fst snd]. rewrite neg_cos, neg_sin. f_equal; ring. }
  assert (Ei : Cinv z = Cexp (- s, 2 * PI - (a + PI))).
  { pose proof (Cexp_inv s (a + PI)) as I. rewrite <- Ez in I. assert (Nz : z <> RtoC 0). { intros Z. apply N. rewrite Z. ring. }
    replace (Cexp (- s, 2 * PI - (a + PI))) with (Cmult (Cinv z) (Cmult z (Cexp (- s, 2 * PI - (a + PI))))) by (field; exact Nz). rewrite I. ring. }
  pose proof (Dinv_zero n s (a + PI) ltac:(lra)) as D. unfold Dinv in D. rewrite <- Ez, <- Ei in D. replace (a + PI - PI) with a in D by ring.
  set (X := Cplus (CLi n z) (Cmult (RtoC ((-1) ^ n)) (CLi n (Cinv z)))) in *.
  replace X with (Cplus (Cminus X (restC neg_eta_true inv_fact n (s, a))) (restC neg_eta_true inv_fact n (s, a))) by ring. rewrite D. ring.
Qed.
