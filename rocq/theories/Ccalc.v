(** * Calculus of complex functions of a real variable.
    Nothing here mentions the code. *)
From Coq Require Import ZArith Reals List Bool Lra Lia Psatz.
From Coquelicot Require Import Coquelicot.
From Verif Require Import NumR Spec Cplx Clog_series Chain Polylog Unity.
Import ListNotations.
Local Open Scope R_scope.

(** f' (t) = d, componentwise *)
Definition cder (f : R -> C) (t : R) (d : C) : Prop :=
  is_derive (fun s => fst (f s)) t (fst d) /\ is_derive (fun s => snd (f s)) t (snd d).
Definition ccont (f : R -> C) (t : R) : Prop :=
  continuous (fun s => fst (f s)) t /\ continuous (fun s => snd (f s)) t.

Lemma cder_cont f t d : cder f t d -> ccont f t.
Proof. intros [A B]. split; [apply (ex_derive_continuous (fun s => fst (f s)))|apply (ex_derive_continuous (fun s => snd (f s)))]; eexists; eassumption. Qed.
Lemma cder_ext_loc f g t d : locally t (fun s => f s = g s) -> cder f t d -> cder g t d.
Proof.
  intros L [A B]. split.
  - apply (is_derive_ext_loc (fun s => fst (f s))); [|exact A]. revert L. apply filter_imp. intros s ->. reflexivity.
  - apply (is_derive_ext_loc (fun s => snd (f s))); [|exact B]. revert L. apply filter_imp. intros s ->. reflexivity.
Qed.
Lemma cder_ext f g t d : (forall s, f s = g s) -> cder f t d -> cder g t d.
Proof. intros H. apply cder_ext_loc. apply filter_forall. exact H. Qed.
Lemma cder_eq f t d d' : d = d' -> cder f t d -> cder f t d'. Proof. intros ->. auto. Qed.
Lemma cder_const c t : cder (fun _ => c) t (RtoC 0).
Proof. split; apply (is_derive_const (_ : R)). Qed.
Lemma cder_plus f g t d e : cder f t d -> cder g t e -> cder (fun s => Cplus (f s) (g s)) t (Cplus d e).
Proof. intros [A B] [A' B']. split; [apply (is_derive_plus (fun s => fst (f s)) (fun s => fst (g s)))|apply (is_derive_plus (fun s => snd (f s)) (fun s => snd (g s)))]; assumption. Qed.
Lemma cder_opp f t d : cder f t d -> cder (fun s => Copp (f s)) t (Copp d).
Proof. intros [A B]. split; [apply (is_derive_opp (fun s => fst (f s)))|apply (is_derive_opp (fun s => snd (f s)))]; assumption. Qed.
Lemma cder_minus f g t d e : cder f t d -> cder g t e -> cder (fun s => Cminus (f s) (g s)) t (Cminus d e).
Proof. intros A B. apply (cder_plus f (fun s => Copp (g s))); [exact A|]. apply cder_opp. exact B. Qed.
Lemma isd_mult (f g : R -> R) t d e : is_derive f t d -> is_derive g t e -> is_derive (fun s => f s * g s) t (d * g t + f t * e).
Proof. intros A B. apply (is_derive_mult f g t d e A B). intros; apply Rmult_comm. Qed.
Lemma cder_mult f g t d e : cder f t d -> cder g t e -> cder (fun s => Cmult (f s) (g s)) t (Cplus (Cmult d (g t)) (Cmult (f t) e)).
Proof.
  intros [A B] [A' B']. split; unfold Cmult, Cplus; cbn [fst snd].
  - replace (fst d * fst (g t) - snd d * snd (g t) + (fst (f t) * fst e - snd (f t) * snd e))
      with ((fst d * fst (g t) + fst (f t) * fst e) - (snd d * snd (g t) + snd (f t) * snd e)) by ring.
    apply (is_derive_minus (fun s => fst (f s) * fst (g s)) (fun s => snd (f s) * snd (g s))); apply isd_mult; assumption.
  - replace (fst d * snd (g t) + snd d * fst (g t) + (fst (f t) * snd e + snd (f t) * fst e))
      with ((fst d * snd (g t) + fst (f t) * snd e) + (snd d * fst (g t) + snd (f t) * fst e)) by ring.
    apply (is_derive_plus (fun s => fst (f s) * snd (g s)) (fun s => snd (f s) * fst (g s))); apply isd_mult; assumption.
Qed.
Lemma cder_scal c f t d : cder f t d -> cder (fun s => Cmult c (f s)) t (Cmult c d).
Proof. intros A. eapply cder_eq; [|apply (cder_mult (fun _ => c) f); [apply cder_const|exact A]]. cbv beta. ring. Qed.
Lemma cder_RtoC f t d : is_derive f t d -> cder (fun s => RtoC (f s)) t (RtoC d).
Proof. intros A. split; [exact A|apply (is_derive_const 0)]. Qed.
Lemma cder_lin a b t : cder (fun s => Cplus a (Cmult (RtoC s) b)) t b.
Proof.
  eapply cder_eq; [|apply (cder_plus (fun _ => a) (fun s => Cmult (RtoC s) b)); [apply cder_const|apply (cder_mult (fun s => RtoC s) (fun _ => b)); [apply cder_RtoC; apply is_derive_idR|apply cder_const]]].
  cbv beta. ring.
Qed.
Lemma cder_ray z t : cder (fun s => Cmult (RtoC s) z) t z.
Proof. apply (cder_ext (fun s => Cplus (RtoC 0) (Cmult (RtoC s) z))); [intros; ring|]. apply cder_lin. Qed.
Lemma cder_comp f g t d e : is_derive g t e -> cder f (g t) d -> cder (fun s => f (g s)) t (Cmult (RtoC e) d).
Proof.
  intros G [A B]. split; unfold Cmult, RtoC; cbn [fst snd].
  - replace (e * fst d - 0 * snd d) with (e * fst d) by ring. apply (is_derive_comp (fun s => fst (f s)) g); assumption.
  - replace (e * snd d + 0 * fst d) with (e * snd d) by ring. apply (is_derive_comp (fun s => snd (f s)) g); assumption.
Qed.
Lemma cder_pow f t d n : cder f t d -> cder (fun s => Cpow (f s) (S n)) t (Cmult (Cmult (RtoC (INR (S n))) (Cpow (f t) n)) d).
Proof.
  intros A. induction n as [|n IH].
  - apply (cder_ext f); [intros; cbn [Cpow]; ring|]. eapply cder_eq; [|exact A]. cbn [Cpow]. change (INR 1) with 1. ring.
  - eapply cder_eq; [|apply (cder_mult f (fun s => Cpow (f s) (S n)) _ _ _ A IH)].
    cbv beta. rewrite (S_INR (S n)), RtoC_plus. cbn [Cpow]. ring.
Qed.
Lemma ccont_const c t : ccont (fun _ => c) t. Proof. split; apply continuous_const. Qed.
Lemma ccont_plus f g t : ccont f t -> ccont g t -> ccont (fun s => Cplus (f s) (g s)) t.
Proof. intros [A B] [A' B']. split; [apply (continuous_plus (fun s => fst (f s)) (fun s => fst (g s)))|apply (continuous_plus (fun s => snd (f s)) (fun s => snd (g s)))]; assumption. Qed.
Lemma ccont_opp f t : ccont f t -> ccont (fun s => Copp (f s)) t.
Proof. intros [A B]. split; [apply (continuous_opp (fun s => fst (f s)))|apply (continuous_opp (fun s => snd (f s)))]; assumption. Qed.
Lemma ccont_minus f g t : ccont f t -> ccont g t -> ccont (fun s => Cminus (f s) (g s)) t.
Proof. intros A B. apply (ccont_plus f (fun s => Copp (g s))); [exact A|]. apply ccont_opp. exact B. Qed.
Lemma ccont_mult f g t : ccont f t -> ccont g t -> ccont (fun s => Cmult (f s) (g s)) t.
Proof.
  intros [A B] [A' B']. split; unfold Cmult; cbn [fst snd].
  - apply (continuous_minus (fun s => fst (f s) * fst (g s)) (fun s => snd (f s) * snd (g s)));
    [apply (continuous_mult (fun s => fst (f s)) (fun s => fst (g s)))|apply (continuous_mult (fun s => snd (f s)) (fun s => snd (g s)))]; assumption.
  - apply (continuous_plus (fun s => fst (f s) * snd (g s)) (fun s => snd (f s) * fst (g s)));
    [apply (continuous_mult (fun s => fst (f s)) (fun s => snd (g s)))|apply (continuous_mult (fun s => snd (f s)) (fun s => fst (g s)))]; assumption.
Qed.
Lemma ccont_ext_loc f g t : locally t (fun s => f s = g s) -> ccont f t -> ccont g t.
Proof.
  intros L [A B]. split.
  - apply (continuous_ext_loc _ (fun s => fst (f s))); [|exact A]. revert L. apply filter_imp. intros s ->. reflexivity.
  - apply (continuous_ext_loc _ (fun s => snd (f s))); [|exact B]. revert L. apply filter_imp. intros s ->. reflexivity.
Qed.

(** ** bounds *)
Lemma Cmod_fst z : Rabs (fst z) <= Cmod z. Proof. eapply Rle_trans; [|apply Rmax_Cmod]. apply Rmax_l. Qed.
Lemma Cmod_snd z : Rabs (snd z) <= Cmod z. Proof. eapply Rle_trans; [|apply Rmax_Cmod]. apply Rmax_r. Qed.
Lemma Cmod_le_sum z : Cmod z <= Rabs (fst z) + Rabs (snd z).
Proof.
  pose proof (Cmod_sq z) as E. pose proof (Cmod_ge_0 z). pose proof (Rabs_pos (fst z)). pose proof (Rabs_pos (snd z)).
  assert (Rabs (fst z) * Rabs (fst z) = fst z * fst z) by (rewrite <- Rabs_mult; apply Rabs_pos_eq; nra).
  assert (Rabs (snd z) * Rabs (snd z) = snd z * snd z) by (rewrite <- Rabs_mult; apply Rabs_pos_eq; nra). nra.
Qed.
(** |f'| <= g' on (a,b) gives |f b - f a| <= g b - g a *)
Lemma cmv (f df : R -> C) (g dg : R -> R) a b : a <= b ->
  (forall t, a < t < b -> cder f t (df t)) -> (forall t, a < t < b -> is_derive g t (dg t)) ->
  (forall t, a <= t <= b -> ccont f t) -> (forall t, a <= t <= b -> continuous g t) ->
  (forall t, a < t < b -> Cmod (df t) <= dg t) -> Cmod (Cminus (f b) (f a)) <= g b - g a.
Proof.
  intros Hab Df Dg Cf Cg B.
  destruct (Req_dec a b) as [->|Nab]. { replace (Cminus (f b) (f b)) with (RtoC 0) by ring. rewrite Cmod_0. lra. }
  set (v := Cminus (f b) (f a)).
  (* projection on v *)
  set (p := fun z : C => fst v * fst z + snd v * snd z).
  assert (Pb : forall z, p z <= Cmod v * Cmod z).
  { intros z. unfold p. pose proof (Cmod_sq v) as Ev. pose proof (Cmod_sq z) as Ez. pose proof (Cmod_ge_0 v). pose proof (Cmod_ge_0 z).
    destruct (Rle_dec (fst v * fst z + snd v * snd z) 0) as [N|N]; [nra|]. apply Rnot_le_lt in N.
    apply Rsqr_incr_0; [|lra|nra]. unfold Rsqr.
    replace (Cmod v * Cmod z * (Cmod v * Cmod z)) with ((Cmod v * Cmod v) * (Cmod z * Cmod z)) by ring. rewrite Ev, Ez.
    pose proof (pow2_ge_0 (fst v * snd z - snd v * fst z)). nra. }
  set (h := fun t => p (f t) - Cmod v * g t).
  set (dh := fun t => if Rlt_dec a t then if Rlt_dec t b then p (df t) - Cmod v * dg t else 0 else 0).
  destruct (MVT_gen h a b dh) as (c & Hc & E).
  - rewrite Rmin_left, Rmax_right by lra. intros t Ht. destruct (Df t Ht) as [D1 D2]. unfold dh.
    destruct (Rlt_dec a t); [|lra]. destruct (Rlt_dec t b); [|lra]. unfold h, p.
    apply (is_derive_minus (fun t => fst v * fst (f t) + snd v * snd (f t)) (fun t => Cmod v * g t)).
    + apply (is_derive_plus (fun t => fst v * fst (f t)) (fun t => snd v * snd (f t)));
      [apply (is_derive_scal (fun t => fst (f t)))|apply (is_derive_scal (fun t => snd (f t)))]; assumption.
    + apply (is_derive_scal g). apply Dg. exact Ht.
  - rewrite Rmin_left, Rmax_right by lra. intros t Ht. apply continuity_pt_filterlim. destruct (Cf t Ht) as [C1 C2]. unfold h, p.
    apply (continuous_minus (fun t => fst v * fst (f t) + snd v * snd (f t)) (fun t => Cmod v * g t)).
    + apply (continuous_plus (fun t => fst v * fst (f t)) (fun t => snd v * snd (f t)));
      [apply (continuous_scal_r (fst v) (fun t => fst (f t)))|apply (continuous_scal_r (snd v) (fun t => snd (f t)))]; assumption.
    + apply (continuous_scal_r (Cmod v) g). apply Cg. exact Ht.
  - rewrite Rmin_left, Rmax_right in Hc by lra.
    assert (Dn : dh c <= 0).
    { unfold dh. destruct (Rlt_dec a c); [|lra]. destruct (Rlt_dec c b); [|lra]. pose proof (Pb (df c)). pose proof (B c ltac:(lra)).
      pose proof (Cmod_ge_0 v). nra. }
    assert (M : h b <= h a) by nra. unfold h in M.
    assert (V : p (f b) - p (f a) = Cmod v * Cmod v).
    { rewrite Cmod_sq. unfold p, v, Cminus, Cplus, Copp. cbn [fst snd]. ring. }
    destruct (Req_dec (Cmod v) 0) as [Z0|Z0].
    + rewrite Z0. 
      (* g is non-decreasing *)
      assert (G : exists c, a <= c <= b /\ g b - g a = (if Rlt_dec a c then if Rlt_dec c b then dg c else 0 else 0) * (b - a)).
      { destruct (MVT_gen g a b (fun c => if Rlt_dec a c then if Rlt_dec c b then dg c else 0 else 0)) as (c' & Hc' & E').
        - rewrite Rmin_left, Rmax_right by lra. intros t Ht. destruct (Rlt_dec a t); [|lra]. destruct (Rlt_dec t b); [|lra]. apply Dg. exact Ht.
        - rewrite Rmin_left, Rmax_right by lra. intros t Ht. apply continuity_pt_filterlim. apply Cg. exact Ht.
        - rewrite Rmin_left, Rmax_right in Hc' by lra. exists c'. split; [exact Hc'|exact E']. }
      destruct G as (c' & Hc' & E'). rewrite E'. destruct (Rlt_dec a c'); [|lra]. destruct (Rlt_dec c' b); [|lra].
      pose proof (B c' ltac:(lra)). pose proof (Cmod_ge_0 (df c')). nra.
    + pose proof (Cmod_ge_0 v). apply Rmult_le_reg_l with (Cmod v); [lra|]. lra.
Qed.
Lemma cmv_M (f df : R -> C) M a b : a <= b ->
  (forall t, a < t < b -> cder f t (df t)) -> (forall t, a <= t <= b -> ccont f t) ->
  (forall t, a < t < b -> Cmod (df t) <= M) -> Cmod (Cminus (f b) (f a)) <= M * (b - a).
Proof.
  intros Hab D C B. replace (M * (b - a)) with (M * b - M * a) by ring.
  apply (cmv f df (fun t => M * t) (fun _ => M)); auto.
  - intros t _. auto_derive; [trivial|ring].
  - intros t _. apply (ex_derive_continuous (fun t => M * t)). auto_derive. trivial.
Qed.
Lemma cconst (f : R -> C) a b : a <= b -> (forall t, a < t < b -> cder f t (RtoC 0)) -> (forall t, a <= t <= b -> ccont f t) -> f b = f a.
Proof.
  intros Hab D C. pose proof (cmv_M f (fun _ => RtoC 0) 0 a b Hab D C) as H.
  assert (Z : Cmod (Cminus (f b) (f a)) = 0). { pose proof (Cmod_ge_0 (Cminus (f b) (f a))). assert (forall t, a < t < b -> Cmod (RtoC 0) <= 0) by (intros; rewrite Cmod_0; lra). specialize (H H1). lra. }
  apply Cmod_eq_0 in Z. replace (f b) with (Cplus (Cminus (f b) (f a)) (f a)) by ring. rewrite Z. ring.
Qed.

(** ** logarithm and exponential along a curve *)
Lemma atan2_pos y x : 0 < y -> atan2R y x = PI / 2 + - atan (x / y).
Proof.
  intros H. unfold atan2R. destruct (Rlt_dec 0 x) as [P|P].
  - replace (x / y) with (/ (y / x)) by (field; lra). rewrite atan_inv; [lra|apply Rdiv_lt_0_compat; lra].
  - destruct (Rlt_dec x 0) as [Q|Q].
    + destruct (Rle_dec 0 y); [|lra]. replace (x / y) with (- / (y / - x)) by (field; lra). rewrite atan_opp, atan_inv by (apply Rdiv_lt_0_compat; lra).
      replace (y / x) with (- (y / - x)) by (field; lra). rewrite atan_opp. lra.
    + destruct (Rlt_dec 0 y); [|lra]. replace x with 0 by lra. unfold Rdiv. rewrite Rmult_0_l, atan_0. lra.
Qed.
Lemma atan2_negy y x : y < 0 -> atan2R y x = - (PI / 2) + - atan (x / y).
Proof.
  intros H. replace y with (- - y) at 1 by ring. rewrite atan2_opp, atan2_pos by lra.
  replace (x / - y) with (- (x / y)) by (field; lra). rewrite atan_opp. lra.
Qed.
Definition offneg (z : C) : Prop := 0 < fst z \/ snd z <> 0.
Lemma offneg_neq z : offneg z -> z <> RtoC 0.
Proof. intros [H|H] E; rewrite E in H; cbn in H; lra. Qed.
Lemma cder_pt f t d : cder f t d -> forall P : C -> Prop, (forall x, P x -> exists e : posreal, forall y, Rabs (fst y - fst x) < e -> Rabs (snd y - snd x) < e -> P y) -> P (f t) -> locally t (fun s => P (f s)).
Proof.
  intros D P O H. apply cder_cont in D. destruct D as [A B]. destruct (O _ H) as [e He].
  assert (LA : locally t (fun s => Rabs (fst (f s) - fst (f t)) < e)).
  { apply (A (fun v => Rabs (v - fst (f t)) < e)). exists e. intros y Hy. exact Hy. }
  assert (LB : locally t (fun s => Rabs (snd (f s) - snd (f t)) < e)).
  { apply (B (fun v => Rabs (v - snd (f t)) < e)). exists e. intros y Hy. exact Hy. }
  generalize (filter_and _ _ LA LB). apply filter_imp. intros s [H1 H2]. apply He; assumption.
Qed.
Lemma isd_lnmod (x y : R -> R) (t dx dy : R) : x t <> 0 \/ y t <> 0 -> is_derive x t dx -> is_derive y t dy ->
  is_derive (fun s => ln (sqrt (x s * x s + y s * y s))) t ((dx * x t + dy * y t) / (x t * x t + y t * y t)).
Proof.
  intros N X Y. assert (Q : 0 < x t * x t + y t * y t) by nra.
  pose proof (sqrt_lt_R0 _ Q) as SQ.
  evar_last.
  - apply (is_derive_comp ln (fun s => sqrt (x s * x s + y s * y s))).
    + apply is_derive_Reals. apply derivable_pt_lim_ln. exact SQ.
    + apply (is_derive_comp sqrt (fun s => x s * x s + y s * y s)).
      * apply is_derive_Reals. apply derivable_pt_lim_sqrt. exact Q.
      * apply (is_derive_plus (fun s => x s * x s) (fun s => y s * y s)); apply isd_mult; eassumption.
  - unfold scal, plus; cbn. unfold mult; cbn.
    assert (E : sqrt (x t * x t + y t * y t) * sqrt (x t * x t + y t * y t) = x t * x t + y t * y t) by (apply sqrt_sqrt; lra).
    set (q := x t * x t + y t * y t) in *. set (r := sqrt q) in *. rewrite <- E. toR. field. lra.
Qed.
Lemma isd_atan (x y : R -> R) (t dx dy : R) : x t <> 0 -> is_derive x t dx -> is_derive y t dy ->
  is_derive (fun s => atan (y s / x s)) t ((dy * x t - dx * y t) / (x t * x t + y t * y t)).
Proof.
  intros N X Y. evar_last.
  - apply (is_derive_comp atan (fun s => y s / x s)).
    + apply is_derive_Reals. apply derivable_pt_lim_atan.
    + apply (is_derive_div y x); eassumption.
  - unfold scal, plus; cbn. unfold mult; cbn. toR. unfold Rsqr. field. repeat split; auto. nra.
Qed.
Lemma cder_Clog f t d : offneg (f t) -> cder f t d -> cder (fun s => Clog (f s)) t (Cdiv d (f t)).
Proof.
  intros O D. pose proof D as [X Y].
  assert (Q : 0 < fst (f t) * fst (f t) + snd (f t) * snd (f t)) by (destruct O; nra).
  split.
  - cbn [Clog fst]. apply (is_derive_ext (fun s => ln (sqrt (fst (f s) * fst (f s) + snd (f s) * snd (f s))))); [intros s; rewrite Cmod_alt; reflexivity|].
    evar_last; [apply (isd_lnmod (fun s => fst (f s)) (fun s => snd (f s)) t (fst d) (snd d)); [nra|exact X|exact Y]|].
    cbv beta. unfold Cdiv, Cinv, Cmult. cbn [fst snd]. toR. field. nra.
  - cbn [Clog snd]. unfold Carg.
    destruct (Rlt_dec 0 (fst (f t))) as [P|P].
    + apply (is_derive_ext_loc (fun s => atan (snd (f s) / fst (f s)))).
      * generalize (cder_pt f t d D (fun z => 0 < fst z)). intros L.
        assert (L' : locally t (fun s => 0 < fst (f s))).
        { apply L; [|exact P]. intros x Hx. exists (mkposreal _ Hx). cbn. intros y Hy _. apply Rabs_def2 in Hy. lra. }
        revert L'. apply filter_imp. intros s Hs. unfold atan2R. destruct (Rlt_dec 0 (fst (f s))); [reflexivity|contradiction].
      * evar_last; [apply (isd_atan (fun s => fst (f s)) (fun s => snd (f s)) t (fst d) (snd d)); [lra|exact X|exact Y]|].
        cbv beta. unfold Cdiv, Cinv, Cmult. cbn [fst snd]. toR. field. nra.
    + assert (NY : snd (f t) <> 0) by (destruct O; [contradiction|assumption]).
      assert (DD : is_derive (fun s => - atan (fst (f s) / snd (f s))) t (snd (Cdiv d (f t)))).
      { evar_last; [apply (is_derive_opp (fun s => atan (fst (f s) / snd (f s))));
          apply (isd_atan (fun s => snd (f s)) (fun s => fst (f s)) t (snd d) (fst d)); [exact NY|exact Y|exact X]|].
        cbv beta. unfold opp; cbn. unfold Cdiv, Cinv, Cmult. cbn [fst snd]. toR. field. nra. }
      destruct (Rlt_dec 0 (snd (f t))) as [PY|PY].
      * apply (is_derive_ext_loc (fun s => PI / 2 + - atan (fst (f s) / snd (f s)))).
        -- assert (L' : locally t (fun s => 0 < snd (f s))).
           { apply (cder_pt f t d D (fun z => 0 < snd z)); [|exact PY]. intros x Hx. exists (mkposreal _ Hx). cbn. intros y _ Hy. apply Rabs_def2 in Hy. lra. }
           revert L'. apply filter_imp. intros s Hs. symmetry. apply atan2_pos. exact Hs.
        -- evar_last; [apply (is_derive_plus (fun _ => PI / 2) (fun s => - atan (fst (f s) / snd (f s)))); [apply is_derive_const|exact DD]|].
           unfold plus, zero; cbn. toR. ring.
      * apply (is_derive_ext_loc (fun s => - (PI / 2) + - atan (fst (f s) / snd (f s)))).
        -- assert (L' : locally t (fun s => snd (f s) < 0)).
           { apply (cder_pt f t d D (fun z => snd z < 0)); [|lra]. intros x Hx. exists (mkposreal (- snd x) ltac:(lra)). cbn. intros y _ Hy. apply Rabs_def2 in Hy. lra. }
           revert L'. apply filter_imp. intros s Hs. symmetry. apply atan2_negy. exact Hs.
        -- evar_last; [apply (is_derive_plus (fun _ => - (PI / 2)) (fun s => - atan (fst (f s) / snd (f s)))); [apply is_derive_const|exact DD]|].
           unfold plus, zero; cbn. toR. ring.
Qed.
Lemma cder_Cexp f t d : cder f t d -> cder (fun s => Cexp (f s)) t (Cmult d (Cexp (f t))).
Proof.
  intros [X Y]. unfold Cexp. split; cbn [fst snd].
  - evar_last.
    + apply (isd_mult (fun s => exp (fst (f s))) (fun s => cos (snd (f s)))).
      * apply (is_derive_comp exp (fun s => fst (f s))); [apply is_derive_exp|exact X].
      * apply (is_derive_comp cos (fun s => snd (f s))); [apply is_derive_cos|exact Y].
    + unfold scal; cbn. unfold mult; cbn. toR. ring.
  - evar_last.
    + apply (isd_mult (fun s => exp (fst (f s))) (fun s => sin (snd (f s)))).
      * apply (is_derive_comp exp (fun s => fst (f s))); [apply is_derive_exp|exact X].
      * apply (is_derive_comp sin (fun s => snd (f s))); [apply is_derive_sin|exact Y].
    + unfold scal; cbn. unfold mult; cbn. toR. ring.
Qed.
Lemma cder_inv f t d : f t <> RtoC 0 -> cder f t d -> cder (fun s => Cinv (f s)) t (Copp (Cdiv d (Cmult (f t) (f t)))).
Proof.
  intros N D. pose proof (Cneq_sq _ N) as Q. destruct D as [X Y].
  assert (DQ : is_derive (fun s => fst (f s) ^ 2 + snd (f s) ^ 2) t (2 * fst (f t) * fst d + 2 * snd (f t) * snd d)).
  { apply (is_derive_ext (fun s => fst (f s) * fst (f s) + snd (f s) * snd (f s))); [intros; toR; ring|].
    evar_last; [apply (is_derive_plus (fun s => fst (f s) * fst (f s)) (fun s => snd (f s) * snd (f s))); apply isd_mult; eassumption|].
    unfold plus; cbn. toR. ring. }
  split; unfold Cinv; cbn [fst snd].
  - evar_last; [apply (is_derive_div (fun s => fst (f s)) (fun s => fst (f s) ^ 2 + snd (f s) ^ 2)); [exact X|exact DQ|nra]|].
    unfold Copp, Cdiv, Cinv, Cmult. cbn [fst snd]. toR. field. split; nra.
  - evar_last; [apply (is_derive_div (fun s => - snd (f s)) (fun s => fst (f s) ^ 2 + snd (f s) ^ 2)); [apply (is_derive_opp (fun s => snd (f s))); exact Y|exact DQ|nra]|].
    unfold Copp, Cdiv, Cinv, Cmult, opp; cbn. toR. field. split; nra.
Qed.
