(** * The complex polylogarithms on the plane cut along [1, +oo).

    [CLi 1 z] is -Log(1-z) and [CLi (n+1) z] is the integral of Li_n(w)/w along the
    straight line from 0 to z.  Nothing here mentions the code. *)
From Coq Require Import ZArith Reals List Bool Lra Lia Psatz.
From Coquelicot Require Import Coquelicot.
From Verif Require Import NumR Spec Cplx Clog_series Chain Polylog Polylog_eqs Ccalc.
Local Open Scope R_scope.

Definition slit (z : C) : Prop := fst z < 1 \/ snd z <> 0.
(** w |-> f(w)/w along the ray through z: f(tz)/t, with its limit z at t = 0 *)
Definition cov (f : C -> C) (z : C) (t : R) : C := if Req_EM_T t 0 then z else Cdiv (f (Cmult (RtoC t) z)) (RtoC t).
Definition CInt (f : R -> C) (a b : R) : C := (RInt (fun t => fst (f t)) a b, RInt (fun t => snd (f t)) a b).
Fixpoint CLi (n : nat) (z : C) : C :=
  match n with
  | O => Cdiv z (Cminus (RtoC 1) z)
  | S O => Copp (Clog (Cminus (RtoC 1) z))
  | S (S _ as m) => CInt (cov (CLi m) z) 0 1
  end.
Lemma CLi_SS n z : (1 <= n)%nat -> CLi (S n) z = CInt (cov (CLi n) z) 0 1.
Proof. intros H. destruct n; [lia|reflexivity]. Qed.

Lemma slit_ray z s t : 0 <= s <= t -> slit (Cmult (RtoC t) z) -> slit (Cmult (RtoC s) z).
Proof.
  unfold slit, Cmult, RtoC. cbn [fst snd]. intros Hs [H|H].
  - left. assert (s * fst z < 1); [|lra]. assert (t * fst z < 1) by lra. destruct (Rle_dec 0 (fst z)); nra.
  - destruct (Req_dec s 0) as [->|]; [left; lra|right].
    assert (t * snd z <> 0) by lra. assert (snd z <> 0) by (intros E; rewrite E in *; lra). intros E. assert (s * snd z = 0) by lra. apply Rmult_integral in H3. tauto.
Qed.
Lemma slit_open f t d : cder f t d -> slit (f t) -> locally t (fun s => slit (f s)).
Proof.
  intros D. apply (cder_pt f t d D slit). intros x [H|H].
  - exists (mkposreal (1 - fst x) ltac:(lra)). cbn. intros y Hy _. left. apply Rabs_def2 in Hy. lra.
  - exists (mkposreal (Rabs (snd x)) (Rabs_pos_lt _ H)). cbn. intros y _ Hy. right. intros E. rewrite E in Hy.
    replace (0 - snd x) with (- snd x) in Hy by ring. rewrite Rabs_Ropp in Hy. lra.
Qed.
Lemma slit_1m z : slit z -> offneg (Cminus (RtoC 1) z).
Proof. intros [H|H]; unfold offneg, Cminus, Cplus, Copp, RtoC; cbn; [left|right]; lra. Qed.
Lemma slit_neq1 z : slit z -> z <> RtoC 1.
Proof. intros [H|H] E; rewrite E in H; cbn in H; lra. Qed.
Lemma slit_small z : Cmod z < 1 -> slit z.
Proof. intros H. left. pose proof (Cmod_fst z). pose proof (Rle_abs (fst z)). lra. Qed.
Lemma slit_le1 z : Cmod z <= 1 -> z <> RtoC 1 -> slit z.
Proof.
  intros H N. destruct (Req_dec (snd z) 0) as [E|E]; [left|right; exact E].
  pose proof (Cmod_fst z). pose proof (Rle_abs (fst z)). destruct (Req_dec (fst z) 1) as [F|F]; [|lra].
  elim N. destruct z; cbn in *; subst; reflexivity.
Qed.

Lemma CLi_1_der z t : 0 < t -> slit (Cmult (RtoC t) z) ->
  cder (fun s => CLi 1 (Cmult (RtoC s) z)) t (Cdiv (CLi 0 (Cmult (RtoC t) z)) (RtoC t)).
Proof.
  intros Ht H. pose proof (slit_1m _ H) as O. pose proof (offneg_neq _ O) as N.
  cbn [CLi]. eapply cder_eq; [|apply cder_opp; apply cder_Clog; [exact O|]; apply (cder_minus (fun _ => RtoC 1) (fun s => Cmult (RtoC s) z)); [apply cder_const|apply cder_ray]].
  cbv beta. assert (RtoC t <> RtoC 0) by (intros E; injection E; lra). field. split; assumption.
Qed.

(** near 0 *)
Definition near0 (f : C -> C) : Prop := exists c, 0 <= c /\ forall w, Cmod w <= / 2 -> Cmod (Cminus (f w) w) <= c * (Cmod w * Cmod w).
Lemma near0_1 : near0 (CLi 1).
Proof.
  exists 4. split; [lra|]. intros w H. pose proof (log_remainder w 1 ltac:(lra)) as L.
  cbn [CLi]. cbn [Csum] in L. unfold logterm in L. change (INR 1) with 1 in L. cbn [Cpow] in L.
  rewrite <- Cmod_opp. pose proof (Cmod_ge_0 w).
  match type of L with Cmod ?x <= _ => replace (Copp (Cminus (Copp (Clog (Cminus (RtoC 1) w))) w)) with x end.
  2:{ unfold Cdiv. rewrite <- RtoC_inv by lra. replace (/ 1) with 1 by field. ring. }
  eapply Rle_trans; [exact L|]. cbn [pow]. rewrite Rmult_1_r.
  assert (/ (1 - Cmod w) <= 2). { replace 2 with (/ / 2) by field. apply Rinv_le_contravar; lra. }
  assert (0 <= Cmod w * Cmod w) by nra. unfold Rdiv. nra.
Qed.

Lemma cov_0 f z : cov f z 0 = z. Proof. unfold cov. destruct (Req_EM_T 0 0); [reflexivity|contradiction]. Qed.
Lemma cov_n0 f z t : t <> 0 -> cov f z t = Cdiv (f (Cmult (RtoC t) z)) (RtoC t).
Proof. intros H. unfold cov. destruct (Req_EM_T t 0); [contradiction|reflexivity]. Qed.
Lemma Cmod_scal t z : Cmod (Cmult (RtoC t) z) = Rabs t * Cmod z.
Proof. rewrite Cmod_mult, Cmod_R. reflexivity. Qed.

Lemma cov_near f z c t : (forall w, Cmod w <= / 2 -> Cmod (Cminus (f w) w) <= c * (Cmod w * Cmod w)) -> 0 <= c ->
  Rabs t * Cmod z <= / 2 -> Cmod (Cminus (cov f z t) z) <= c * (Rabs t * (Cmod z * Cmod z)).
Proof.
  intros H C0 Ht. pose proof (Cmod_ge_0 z). pose proof (Rabs_pos t). destruct (Req_dec t 0) as [->|N].
  - rewrite cov_0. replace (Cminus z z) with (RtoC 0) by ring. rewrite Cmod_0, Rabs_R0. lra.
  - rewrite cov_n0 by exact N. assert (N' : RtoC t <> RtoC 0) by (intros E; injection E; auto).
    replace (Cminus (Cdiv (f (Cmult (RtoC t) z)) (RtoC t)) z) with (Cdiv (Cminus (f (Cmult (RtoC t) z)) (Cmult (RtoC t) z)) (RtoC t)) by (field; exact N').
    rewrite Cmod_div, Cmod_R by exact N'. pose proof (H (Cmult (RtoC t) z)) as K. rewrite Cmod_scal in K. specialize (K Ht).
    assert (P : 0 < Rabs t) by (apply Rabs_pos_lt; exact N).
    apply Rmult_le_reg_r with (Rabs t); [exact P|]. unfold Rdiv. rewrite Rmult_assoc, Rinv_l, Rmult_1_r by lra. nra.
Qed.
Lemma cov_cont0 f z : near0 f -> ccont (cov f z) 0.
Proof.
  intros (c & C0 & H).
  assert (G : forall p : C -> R, (forall a b, Rabs (p a - p b) <= Cmod (Cminus a b)) -> continuous (fun t => p (cov f z t)) 0).
  { intros p Hp P [e He]. unfold filtermap.
    pose proof (Cmod_ge_0 z) as Z0. set (m := Cmod z) in *.
    assert (D : 0 < Rmin (/ (2 * (m + 1))) (e / ((c + 1) * (m * m + 1)))).
    { apply Rmin_glb_lt; [apply Rinv_0_lt_compat; lra|apply Rdiv_lt_0_compat; [apply cond_pos|nra]]. }
    exists (mkposreal _ D). intros t Ht. unfold ball in Ht; cbn in Ht. unfold AbsRing_ball, abs, minus, plus, opp in Ht; cbn in Ht.
    rewrite Ropp_0, Rplus_0_r in Ht. apply He. unfold ball; cbn. unfold AbsRing_ball, abs, minus, plus, opp; cbn.
    pose proof (Rmin_l (/ (2 * (m + 1))) (e / ((c + 1) * (m * m + 1)))). pose proof (Rmin_r (/ (2 * (m + 1))) (e / ((c + 1) * (m * m + 1)))).
    pose proof (Rabs_pos t).
    assert (T1 : Rabs t * (m + 1) <= / 2).
    { apply Rle_trans with (/ (2 * (m + 1)) * (m + 1)); [apply Rmult_le_compat_r; lra|]. right. field. lra. }
    assert (T2 : Rabs t * ((c + 1) * (m * m + 1)) < e).
    { apply Rlt_le_trans with (e / ((c + 1) * (m * m + 1)) * ((c + 1) * (m * m + 1))); [apply Rmult_lt_compat_r; [nra|lra]|].
      right. field. split; nra. }
    rewrite cov_0. eapply Rle_lt_trans; [apply Hp|]. eapply Rle_lt_trans; [apply (cov_near f z c); [exact H|exact C0|fold m; nra]|].
    fold m. eapply Rle_lt_trans; [|exact T2].
    assert (0 <= Rabs t * (m * m)) by (apply Rmult_le_pos; nra). assert (0 <= c * Rabs t) by (apply Rmult_le_pos; lra).
    replace (Rabs t * ((c + 1) * (m * m + 1))) with (c * (Rabs t * (m * m)) + c * Rabs t + Rabs t * (m * m) + Rabs t) by ring. lra. }
  split; apply G; intros a b.
  - apply (Cmod_fst (Cminus a b)).
  - apply (Cmod_snd (Cminus a b)).
Qed.

(** level n: small-argument behaviour and derivative along rays *)
Definition level (n : nat) : Prop := near0 (CLi n) /\
  forall z t, 0 < t -> slit (Cmult (RtoC t) z) -> cder (fun s => CLi n (Cmult (RtoC s) z)) t (Cdiv (CLi (Nat.pred n) (Cmult (RtoC t) z)) (RtoC t)).

Lemma cov_cont n z t : level n -> 0 <= t -> slit (Cmult (RtoC t) z) -> ccont (cov (CLi n) z) t.
Proof.
  intros [N D] Ht H. destruct (Req_dec t 0) as [->|T]; [apply cov_cont0; exact N|].
  assert (P : 0 < t) by lra. specialize (D z t P H). apply cder_cont in D.
  apply (ccont_ext_loc (fun s => Cmult (RtoC (/ s)) (CLi n (Cmult (RtoC s) z)))).
  - generalize (locally_neq 0 t T). apply filter_imp. intros s Hs. rewrite cov_n0 by exact Hs. rewrite RtoC_inv by exact Hs. unfold Cdiv. ring.
  - apply ccont_mult; [|exact D]. apply (cder_cont _ _ (RtoC (- / (t * t)))). apply cder_RtoC. auto_derive; [exact T|]. field. exact T.
Qed.

Lemma cov_scale f z t s : 0 < t -> cov f (Cmult (RtoC t) z) s = Cmult (RtoC t) (cov f z (t * s + 0)).
Proof.
  intros Ht. rewrite Rplus_0_r. destruct (Req_dec s 0) as [->|N].
  - rewrite Rmult_0_r, !cov_0. reflexivity.
  - assert (t * s <> 0) by nra. rewrite !cov_n0 by assumption.
    replace (Cmult (RtoC s) (Cmult (RtoC t) z)) with (Cmult (RtoC (t * s)) z) by (rewrite RtoC_mult; ring).
    rewrite RtoC_mult. assert (RtoC t <> RtoC 0) by (intros E; injection E; lra). assert (RtoC s <> RtoC 0) by (intros E; injection E; auto). field. split; assumption.
Qed.
Lemma cov_int n z t (p : C -> R) : (p = fst \/ p = snd) -> level n -> 0 < t -> slit (Cmult (RtoC t) z) -> ex_RInt (fun s => p (cov (CLi n) z s)) 0 t.
Proof.
  intros Hp L Ht H. apply (ex_RInt_continuous (V := R_CompleteNormedModule) (fun s => p (cov (CLi n) z s))). rewrite Rmin_left, Rmax_right by lra. intros s Hs.
  destruct (cov_cont n z s L ltac:(lra) (slit_ray z s t ltac:(lra) H)). destruct Hp; subst p; assumption.
Qed.
Lemma CLi_ray n z t : (1 <= n)%nat -> level n -> 0 < t -> slit (Cmult (RtoC t) z) -> CLi (S n) (Cmult (RtoC t) z) = CInt (cov (CLi n) z) 0 t.
Proof.
  intros Hn L Ht H. rewrite CLi_SS by exact Hn. unfold CInt.
  assert (G : forall p : C -> R, p = fst \/ p = snd -> RInt (fun s => p (cov (CLi n) (Cmult (RtoC t) z) s)) 0 1 = RInt (fun s => p (cov (CLi n) z s)) 0 t).
  { intros p Hp.
    assert (EI : ex_RInt (fun s => p (cov (CLi n) z s)) (t * 0 + 0) (t * 1 + 0)).
    { rewrite Rmult_0_r, Rplus_0_r, Rmult_1_r, Rplus_0_r. apply cov_int; assumption. }
    pose proof (RInt_comp_lin (V := R_CompleteNormedModule) (fun s => p (cov (CLi n) z s)) t 0 0 1 EI) as K. cbv beta in K.
    rewrite Rmult_0_r, Rplus_0_r, Rmult_1_r, Rplus_0_r in K. rewrite <- K. apply RInt_ext.
    intros s _. rewrite cov_scale by exact Ht. unfold scal; cbn. unfold mult; cbn. destruct Hp; subst p; unfold Cmult, RtoC; cbn; toR; ring. }
  f_equal; apply G; auto.
Qed.
Lemma CLi_der_step n z t : (1 <= n)%nat -> level n -> 0 < t -> slit (Cmult (RtoC t) z) ->
  cder (fun s => CLi (S n) (Cmult (RtoC s) z)) t (Cdiv (CLi n (Cmult (RtoC t) z)) (RtoC t)).
Proof.
  intros Hn L Ht H.
  assert (LO : locally t (fun s => 0 < s /\ slit (Cmult (RtoC s) z))).
  { apply filter_and; [apply (open_gt 0); exact Ht|apply (slit_open _ _ z); [apply cder_ray|exact H]]. }
  apply (cder_ext_loc (fun s => CInt (cov (CLi n) z) 0 s)).
  - revert LO. apply filter_imp. intros s [S1 S2]. symmetry. apply CLi_ray; assumption.
  - rewrite <- cov_n0 by lra.
    assert (G : forall p : C -> R, p = fst \/ p = snd -> is_derive (fun s => RInt (fun u => p (cov (CLi n) z u)) 0 s) t (p (cov (CLi n) z t))).
    { intros p Hp. apply (is_derive_RInt (fun u => p (cov (CLi n) z u)) _ 0).
      - revert LO. apply filter_imp. intros s [S1 S2]. apply (RInt_correct (V := R_CompleteNormedModule) (fun u => p (cov (CLi n) z u))). apply cov_int; assumption.
      - destruct (cov_cont n z t L ltac:(lra) H). destruct Hp; subst p; assumption. }
    split; apply (G _); auto.
Qed.
Lemma near0_step n : (1 <= n)%nat -> level n -> near0 (CLi (S n)).
Proof.
  intros Hn L. destruct (proj1 L) as (c & C0 & H). exists (2 * c). split; [lra|]. intros w Hw.
  assert (HS : slit (Cmult (RtoC 1) w)) by (rewrite Cmult_1_l; apply slit_small; lra).
  pose proof (Cmod_ge_0 w) as W0.
  rewrite CLi_SS by exact Hn.
  assert (G : forall p : C -> R, p = fst \/ p = snd -> Rabs (RInt (fun s => p (cov (CLi n) w s)) 0 1 - p w) <= c * (Cmod w * Cmod w)).
  { intros p Hp.
    assert (Lp : forall a b, Rabs (p a - p b) <= Cmod (Cminus a b)).
    { intros a b. destruct Hp; subst p; [apply (Cmod_fst (Cminus a b))|apply (Cmod_snd (Cminus a b))]. }
    assert (EI : ex_RInt (fun s => p (cov (CLi n) w s)) 0 1) by (apply cov_int; auto; lra).
    replace (RInt (fun s => p (cov (CLi n) w s)) 0 1 - p w) with (RInt (fun s => p (cov (CLi n) w s) - p w) 0 1).
    - eapply Rle_trans; [apply (abs_RInt_le_const (fun s => p (cov (CLi n) w s) - p w) 0 1 (c * (Cmod w * Cmod w)))|].
      + lra.
      + apply (ex_RInt_minus (fun s => p (cov (CLi n) w s)) (fun _ => p w)); [exact EI|apply ex_RInt_const].
      + intros s Hs. eapply Rle_trans; [apply Lp|]. eapply Rle_trans; [apply (cov_near _ w c s H C0)|].
        * rewrite Rabs_pos_eq by lra. nra.
        * rewrite Rabs_pos_eq by lra. apply Rmult_le_compat_l; [exact C0|]. assert (0 <= Cmod w * Cmod w) by nra. nra.
      + right. ring.
    - rewrite (RInt_minus (fun s => p (cov (CLi n) w s)) (fun _ => p w)); [|exact EI|apply ex_RInt_const].
      rewrite RInt_const. unfold minus, plus, opp, scal; cbn. unfold mult; cbn. ring. }
  eapply Rle_trans; [apply Cmod_le_sum|]. unfold CInt, Cminus, Cplus, Copp. cbn [fst snd].
  pose proof (G fst (or_introl eq_refl)). pose proof (G snd (or_intror eq_refl)). unfold Rminus in *. lra.
Qed.
Theorem CLi_level n : (1 <= n)%nat -> level n.
Proof.
  induction n as [|n IH]; [lia|]. intros _. destruct n as [|n].
  - split; [apply near0_1|]. intros z t Ht H. apply CLi_1_der; assumption.
  - assert (L := IH ltac:(lia)). split; [apply near0_step; [lia|exact L]|]. intros z t Ht H. apply CLi_der_step; [lia|exact L|exact Ht|exact H].
Qed.
(** d/dt Li_{n+1}(tz) = Li_n(tz)/t *)
Theorem CLi_der n z t : 0 < t -> slit (Cmult (RtoC t) z) ->
  cder (fun s => CLi (S n) (Cmult (RtoC s) z)) t (Cdiv (CLi n (Cmult (RtoC t) z)) (RtoC t)).
Proof. intros Ht H. apply (proj2 (CLi_level (S n) ltac:(lia)) z t Ht H). Qed.
Lemma CLi_0 n : CLi n (RtoC 0) = RtoC 0.
Proof.
  destruct n as [|n].
  - cbn [CLi]. unfold Cdiv. ring.
  - destruct (proj1 (CLi_level (S n) ltac:(lia))) as (c & C0 & H). specialize (H (RtoC 0)). rewrite Cmod_0 in H. specialize (H ltac:(lra)).
    replace (c * (0 * 0)) with 0 in H by ring. assert (E : Cmod (Cminus (CLi (S n) (RtoC 0)) (RtoC 0)) = 0) by (pose proof (Cmod_ge_0 (Cminus (CLi (S n) (RtoC 0)) (RtoC 0))); lra).
    apply Cmod_eq_0 in E. replace (CLi (S n) (RtoC 0)) with (Cplus (Cminus (CLi (S n) (RtoC 0)) (RtoC 0)) (RtoC 0)) by ring. rewrite E. ring.
Qed.
Lemma CLi_ray_cont n z t : 0 <= t -> slit (Cmult (RtoC t) z) -> ccont (fun s => CLi (S n) (Cmult (RtoC s) z)) t.
Proof.
  intros Ht H. destruct (Req_dec t 0) as [->|N].
  - apply (ccont_ext_loc (fun s => Cmult (RtoC s) (cov (CLi (S n)) z s))).
    + apply filter_forall. intros s. destruct (Req_dec s 0) as [->|Ns].
      * rewrite !Cmult_0_l. symmetry. apply CLi_0.
      * rewrite cov_n0 by exact Ns. field. intros E; injection E; auto.
    + apply ccont_mult; [apply (cder_cont _ _ (RtoC 1)), cder_RtoC, is_derive_idR|].
      apply cov_cont0. apply CLi_level. lia.
  - eapply cder_cont. apply CLi_der; [lra|exact H].
Qed.
(** the same derivative in the logarithmic coordinate: d/ds Li_{n+1}(e^{s+i theta}) = Li_n *)
Lemma Cexp_re s y : Cexp (s, y) = Cmult (RtoC (exp s)) (Cexp (0, y)).
Proof. unfold Cexp, Cmult, RtoC. cbn [fst snd]. rewrite exp_0. f_equal; ring. Qed.
Theorem CLi_der_log n y s : slit (Cexp (s, y)) -> cder (fun s => CLi (S n) (Cexp (s, y))) s (CLi n (Cexp (s, y))).
Proof.
  intros H. pose proof (exp_pos s) as E.
  apply (cder_ext (fun s => CLi (S n) (Cmult (RtoC (exp s)) (Cexp (0, y))))); [intros; rewrite <- Cexp_re; reflexivity|].
  rewrite Cexp_re in H.
  eapply cder_eq; [|apply (cder_comp (fun r => CLi (S n) (Cmult (RtoC r) (Cexp (0, y)))) exp s (Cdiv (CLi n (Cmult (RtoC (exp s)) (Cexp (0, y)))) (RtoC (exp s))) (exp s)); [apply is_derive_exp|apply CLi_der; [exact E|exact H]]].
  rewrite <- Cexp_re. field. intros F; injection F; lra.
Qed.

(** ** conjugation and the real axis *)
Lemma Cconj_slit z : slit z -> slit (Cconj z). Proof. unfold slit, Cconj. cbn. intros [H|H]; [left|right]; lra. Qed.
Lemma CLi_conj n : forall z, slit z -> CLi n (Cconj z) = Cconj (CLi n z).
Proof.
  induction n as [|n IH]; intros z H.
  - assert (Q : (1 + - fst z) * (1 + - fst z) + snd z * snd z <> 0).
    { intros E. pose proof (Rle_0_sqr (1 + - fst z)) as Q1. pose proof (Rle_0_sqr (snd z)) as Q2. unfold Rsqr in *. destruct H as [H|H].
      - assert (0 < (1 + - fst z) * (1 + - fst z)) by (apply Rmult_lt_0_compat; lra). lra.
      - apply H. assert (E' : snd z * snd z = 0) by lra. apply Rmult_integral in E'. tauto. }
    cbn [CLi]. destruct z as [a b]. unfold Cdiv, Cminus, Cconj, Cinv, Cmult, Cplus, Copp, RtoC. cbn [fst snd] in *.
    apply injective_projections; cbn [fst snd]; field; repeat split; intros E; apply Q; nra.
  - destruct n as [|n].
    + cbn [CLi]. destruct (Req_dec (snd z) 0) as [E|E].
      * assert (fst z < 1) by (destruct H; [assumption|contradiction]).
        replace (Cconj z) with z by (destruct z; cbn in *; subst; unfold Cconj; cbn; f_equal; ring).
        replace (Cminus (RtoC 1) z) with (RtoC (1 - fst z)) by (destruct z; cbn in *; subst; unfold Cminus, Cplus, Copp, RtoC; cbn; f_equal; ring).
        rewrite Clog_pos by lra. unfold Copp, Cconj, RtoC. cbn. f_equal; ring.
      * replace (Cminus (RtoC 1) (Cconj z)) with (Cconj (Cminus (RtoC 1) z)) by (unfold Cminus, Cplus, Copp, Cconj, RtoC; cbn; f_equal; ring).
        rewrite Clog_conj; [unfold Copp, Cconj; cbn; reflexivity|unfold Cminus, Cplus, Copp, RtoC; cbn; lra].
    + rewrite !CLi_SS by lia.
      assert (E : forall t, 0 <= t <= 1 -> cov (CLi (S n)) (Cconj z) t = Cconj (cov (CLi (S n)) z t)).
      { intros t Ht. destruct (Req_dec t 0) as [->|N]; [rewrite !cov_0; reflexivity|]. rewrite !cov_n0 by exact N.
        replace (Cmult (RtoC t) (Cconj z)) with (Cconj (Cmult (RtoC t) z)) by (unfold Cconj, Cmult, RtoC; cbn; f_equal; ring).
        rewrite IH by (apply (slit_ray z t 1); [lra|rewrite Cmult_1_l; exact H]).
        unfold Cdiv. rewrite <- RtoC_inv by exact N. unfold Cconj, Cmult, RtoC. cbn. f_equal; ring. }
      assert (HS : slit (Cmult (RtoC 1) z)) by (rewrite Cmult_1_l; exact H).
      unfold CInt. unfold Cconj at 3. cbn [fst snd]. f_equal.
      * apply RInt_ext. rewrite Rmin_left, Rmax_right by lra. intros t Ht. rewrite E by lra. reflexivity.
      * rewrite <- (RInt_opp (fun t => snd (cov (CLi (S n)) z t))) by (apply cov_int; auto; [apply CLi_level; lia|lra]).
        apply RInt_ext. rewrite Rmin_left, Rmax_right by lra. intros t Ht. rewrite E by lra. reflexivity.
Qed.
Lemma ReLi_0' n : ReLi (S n) 0 = 0.
Proof. apply Polylog_eqs.ReLi_0. lia. Qed.
Lemma CLi_real n : forall x, (1 <= n)%nat -> x < 1 -> CLi n (RtoC x) = RtoC (ReLi n x).
Proof.
  induction n as [|n IH]; intros x Hn Hx; [lia|]. destruct n as [|n].
  - cbn [CLi ReLi]. replace (Cminus (RtoC 1) (RtoC x)) with (RtoC (1 - x)) by (rewrite RtoC_minus; reflexivity).
    rewrite Clog_pos by lra. rewrite Rabs_pos_eq by lra. rewrite RtoC_opp. reflexivity.
  - (* same derivative along the ray *)
    assert (SL : forall t, 0 <= t <= 1 -> slit (Cmult (RtoC t) (RtoC x))).
    { intros t Ht. left. unfold Cmult, RtoC. cbn. destruct (Rle_dec 0 x); nra. }
    set (f := fun t => Cminus (CLi (S (S n)) (Cmult (RtoC t) (RtoC x))) (RtoC (ReLi (S (S n)) (t * x)))).
    assert (X1 : forall t, 0 <= t <= 1 -> t * x < 1) by (intros t Ht; destruct (Rle_dec 0 x); nra).
    assert (F : f 1 = f 0).
    { apply cconst; [lra| |].
      - intros t Ht. eapply cder_eq; [|apply cder_minus; [apply CLi_der; [lra|apply SL; lra]|apply cder_RtoC; apply (is_derive_comp (ReLi (S (S n))) (fun t => t * x)); [apply ReLi_derive; [lia|left; specialize (X1 t ltac:(lra)); lra]|auto_derive; [trivial|reflexivity]]]].
        rewrite <- RtoC_mult, IH by (try lia; apply X1; lra). match goal with |- context [scal ?a ?b] => change (scal a b) with (a * b)%R end. unfold over_t. rewrite Rmult_1_l.
        unfold Cdiv. rewrite <- RtoC_inv by lra. rewrite <- RtoC_mult, <- RtoC_minus. f_equal.
        destruct (Req_EM_T (t * x) 0) as [Z|Z].
        + assert (x = 0) by nra. rewrite Z. subst x. rewrite ReLi_0' . ring.
        + field. split; nra.
      - intros t Ht. apply ccont_minus; [apply CLi_ray_cont; [lra|apply SL; lra]|].
        split; [|apply continuous_const]. cbn [RtoC fst].
        apply (continuous_comp (fun t => t * x) (ReLi (S (S n)))); [apply (ex_derive_continuous (fun t => t * x)); auto_derive; trivial|].
        apply (proj1 (proj2 (ReLi_props (S (S n)) ltac:(lia)))). }
    unfold f in F. rewrite !Cmult_1_l, Rmult_1_l, Cmult_0_l, Rmult_0_l, CLi_0, ReLi_0' in F.
    replace (CLi (S (S n)) (RtoC x)) with (Cplus (Cminus (CLi (S (S n)) (RtoC x)) (RtoC (ReLi (S (S n)) x))) (RtoC (ReLi (S (S n)) x))) by ring.
    rewrite F. ring.
Qed.
