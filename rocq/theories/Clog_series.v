(** * Complex power series: geometric series, its derivative, and -log(1-z) *)
From Coq Require Import ZArith Reals List Lra Lia Psatz.
From Coquelicot Require Import Coquelicot.
From Verif Require Import NumR Spec Cplx Chain.
Local Open Scope R_scope.

(** [w] is the sum of the convergent complex series f 0 + f 1 + ... *)
Definition Csums (f : nat -> C) (w : C) : Prop := is_lim_seq (fun K => Cmod (Cminus (Csum f K) w)) 0.

Lemma Cpow_S z n : Cpow z (S n) = Cmult z (Cpow z n). Proof. reflexivity. Qed.
Lemma Cpow_mod z n : Cmod (Cpow z n) = Cmod z ^ n.
Proof. induction n as [|n IH]; cbn [Cpow pow]; [apply Cmod_1|]. rewrite Cmod_mult, IH. reflexivity. Qed.

Lemma Csums_bound f w (a : nat -> R) : (forall K, Cmod (Cminus (Csum f K) w) <= a K) -> is_lim_seq a 0 -> Csums f w.
Proof.
  intros H L. unfold Csums. apply (is_lim_seq_le_le (fun _ => 0) _ a); [|apply is_lim_seq_const|exact L].
  intros K. split; [apply Cmod_ge_0|apply H].
Qed.

Lemma geom_sum z K : Cmult (Cminus (RtoC 1) z) (Csum (fun k => Cpow z (S k)) K) = Cminus z (Cpow z (S K)).
Proof. induction K as [|K IH]; cbn [Csum Cpow] in *; [ring|]. rewrite Cmult_plus_distr_l, IH. ring. Qed.
Lemma geom1_sum z K :
  Cmult (Cmult (Cminus (RtoC 1) z) (Cminus (RtoC 1) z)) (Csum (fun k => Cmult (RtoC (INR (S k))) (Cpow z (S k))) K)
  = Cminus z (Cmult (Cpow z (S K)) (Cminus (RtoC (INR (S K))) (Cmult (RtoC (INR K)) z))).
Proof.
  induction K as [|K IH]; [cbn [Csum Cpow INR]; ring|].
  cbn [Csum]. rewrite Cmult_plus_distr_l, IH. rewrite (S_INR (S K)), (S_INR K), !RtoC_plus. cbn [Cpow]. ring.
Qed.
Lemma one_minus_neq (z : C) : z <> RtoC 1 -> Cminus (RtoC 1) z <> RtoC 0.
Proof. intros H E. apply H. replace z with (Cminus (RtoC 1) (Cminus (RtoC 1) z)) by ring. rewrite E. ring. Qed.
Lemma Cmod_lt1_neq (z : C) : Cmod z < 1 -> z <> RtoC 1.
Proof. intros H ->. rewrite Cmod_1 in H. lra. Qed.

Lemma lim_pow r : 0 <= r < 1 -> is_lim_seq (fun n => r ^ n) 0.
Proof. intros H. apply is_lim_seq_geom. rewrite Rabs_pos_eq; lra. Qed.
Lemma npow_bound s n : 0 <= s < 1 -> INR n * s ^ n <= / (1 - s).
Proof.
  intros H. apply Rmult_le_reg_r with (1 - s); [lra|]. rewrite Rinv_l by lra.
  assert (K : INR n * s ^ n * (1 - s) <= 1 - s ^ n).
  { induction n as [|n IH]; [cbn; lra|]. rewrite S_INR. cbn [pow].
    assert (A : 0 <= s ^ n) by (apply pow_le; lra).
    assert (B : s ^ n <= 1) by (rewrite <- (pow1 n); apply pow_incr; lra).
    assert (B' : s * s ^ n <= 1) by nra.
    assert (C0 : s * (INR n * s ^ n * (1 - s)) <= s * (1 - s ^ n)) by (apply Rmult_le_compat_l; lra).
    assert (D : 0 <= (1 - s) * (1 - s * s ^ n)) by (apply Rmult_le_pos; lra). lra. }
  assert (0 <= s ^ n) by (apply pow_le; lra). lra.
Qed.
Lemma lim_npow r : 0 <= r < 1 -> is_lim_seq (fun n => INR n * r ^ n) 0.
Proof.
  intros H. set (s := sqrt r).
  assert (Hs : 0 <= s < 1). { split; [apply sqrt_pos|]. unfold s. rewrite <- sqrt_1. apply sqrt_lt_1; lra. }
  assert (E : r = s * s) by (unfold s; rewrite sqrt_sqrt; lra).
  apply (is_lim_seq_le_le (fun _ => 0) _ (fun n => / (1 - s) * s ^ n)).
  - intros n. rewrite E, Rpow_mult_distr. assert (0 <= s ^ n) by (apply pow_le; lra). pose proof (npow_bound s n Hs). pose proof (pos_INR n).
    split; [apply Rmult_le_pos; nra|]. rewrite <- Rmult_assoc. apply Rmult_le_compat_r; assumption.
  - apply is_lim_seq_const.
  - replace (Finite 0) with (Rbar_mult (/ (1 - s)) 0) by (cbn; f_equal; ring). apply is_lim_seq_scal_l. apply lim_pow. exact Hs.
Qed.

(** z + z^2 + ... = z/(1-z) *)
Lemma geom_series z : Cmod z < 1 -> Csums (fun k => Cpow z (S k)) (Cdiv z (Cminus (RtoC 1) z)).
Proof.
  intros H. pose proof (one_minus_neq z (Cmod_lt1_neq z H)) as D.
  set (d := Cminus (RtoC 1) z) in *. assert (Dm : 0 < Cmod d) by (apply Cmod_gt_0; exact D).
  apply (Csums_bound _ _ (fun K => (Cmod z / Cmod d) * Cmod z ^ K)).
  - intros K. assert (E : Csum (fun k => Cpow z (S k)) K = Cdiv (Cminus z (Cpow z (S K))) d).
    { rewrite <- geom_sum. fold d. field. exact D. }
    rewrite E. replace (Cminus _ _) with (Cdiv (Copp (Cpow z (S K))) d) by (field; exact D).
    rewrite Cmod_div, Cmod_opp, Cpow_mod by exact D. cbn [pow]. right. field. lra.
  - replace (Finite 0) with (Rbar_mult (Cmod z / Cmod d) 0) by (cbn; f_equal; ring). apply is_lim_seq_scal_l. apply lim_pow.
    split; [apply Cmod_ge_0|exact H].
Qed.
(** z + 2 z^2 + 3 z^3 + ... = z/(1-z)^2 *)
Lemma geom1_series z : Cmod z < 1 ->
  Csums (fun k => Cmult (RtoC (INR (S k))) (Cpow z (S k))) (Cdiv z (Cmult (Cminus (RtoC 1) z) (Cminus (RtoC 1) z))).
Proof.
  intros H. pose proof (one_minus_neq z (Cmod_lt1_neq z H)) as D.
  set (d := Cmult (Cminus (RtoC 1) z) (Cminus (RtoC 1) z)) in *. assert (D2 : d <> RtoC 0) by (unfold d; apply Cmult_neq_0; exact D).
  assert (Dm : 0 < Cmod d) by (apply Cmod_gt_0; exact D2). pose proof (Cmod_ge_0 z) as Z0.
  apply (Csums_bound _ _ (fun K => (Cmod z / Cmod d) * (2 * (INR K * Cmod z ^ K)) + (Cmod z / Cmod d) * Cmod z ^ K)).
  - intros K. match goal with |- Cmod (Cminus ?T _) <= _ => assert (E : T = Cdiv (Cminus z (Cmult (Cpow z (S K)) (Cminus (RtoC (INR (S K))) (Cmult (RtoC (INR K)) z)))) d) end.
    { rewrite <- geom1_sum. fold d. field. exact D2. }
    rewrite E.
    replace (Cminus _ _) with (Cdiv (Copp (Cmult (Cpow z (S K)) (Cminus (RtoC (INR (S K))) (Cmult (RtoC (INR K)) z)))) d) by (field; exact D2).
    rewrite Cmod_div, Cmod_opp, Cmod_mult, Cpow_mod by exact D2. cbn [pow].
    assert (B : Cmod (Cminus (RtoC (INR (S K))) (Cmult (RtoC (INR K)) z)) <= 2 * INR K + 1).
    { unfold Cminus. eapply Rle_trans; [apply Cmod_triangle|]. rewrite Cmod_opp, Cmod_mult, !Cmod_R, !Rabs_pos_eq by apply pos_INR.
      rewrite S_INR. pose proof (pos_INR K). nra. }
    apply Rle_trans with (Cmod z * Cmod z ^ K * (2 * INR K + 1) / Cmod d).
    + unfold Rdiv. apply Rmult_le_compat_r; [left; apply Rinv_0_lt_compat; exact Dm|]. apply Rmult_le_compat_l; [|exact B].
      apply Rmult_le_pos; [exact Z0|apply pow_le; exact Z0].
    + right. field. lra.
  - replace (Finite 0) with (Finite (Cmod z / Cmod d * (2 * 0) + Cmod z / Cmod d * 0)) by (f_equal; ring).
    apply is_lim_seq_plus'; apply (is_lim_seq_scal_l _ _ (Finite _)).
    + apply (is_lim_seq_scal_l _ _ (Finite 0)). apply lim_npow. split; [exact Z0|exact H].
    + apply lim_pow. split; [exact Z0|exact H].
Qed.

(** ** -log(1-z) = z + z^2/2 + z^3/3 + ... *)
Lemma rescale (z : C) t : Cminus (RtoC 1) (Cmult (RtoC t) z) = (1 - t * fst z, - (t * snd z)).
Proof. destruct z as [a b]. unfold Cminus, Cmult, Cplus, Copp, RtoC. cbn [fst snd]. f_equal; ring. Qed.

(** derivative of log along the ray, in the right half plane *)
Lemma log_ray_re a b t : 0 < 1 - t * a ->
  is_derive (fun t => ln (sqrt ((1 - t * a) * (1 - t * a) + (- (t * b)) * (- (t * b))))) t
    (- fst (Cdiv (a, b) (1 - t * a, - (t * b)))).
Proof.
  intros H. assert (Q : 0 < (1 - t * a) * (1 - t * a) + (- (t * b)) * (- (t * b))) by nra.
  pose proof (sqrt_lt_R0 _ Q) as SQ.
  auto_derive; [repeat split; try (apply sqrt_lt_R0); lra|].
  unfold Cdiv, Cinv, Cmult. cbn [fst snd pow].
  match goal with |- context [sqrt ?u] => replace u with ((1 - t * a) * (1 - t * a) + (- (t * b)) * (- (t * b))) by ring end.
  set (q := (1 - t * a) * (1 - t * a) + - (t * b) * - (t * b)) in *.
  replace ((1 - t * a) * ((1 - t * a) * 1) + - (t * b) * (- (t * b) * 1)) with q by (unfold q; ring).
  assert (E : sqrt q * sqrt q = q) by (apply sqrt_sqrt; lra).
  set (r := sqrt q) in *. rewrite <- E. field. lra.
Qed.
Lemma log_ray_im a b t : 0 < 1 - t * a ->
  is_derive (fun t => atan (- (t * b) / (1 - t * a))) t (- snd (Cdiv (a, b) (1 - t * a, - (t * b)))).
Proof.
  intros H. assert (Q : 0 < (1 - t * a) * (1 - t * a) + (- (t * b)) * (- (t * b))) by nra.
  auto_derive; [lra|].
  unfold Cdiv, Cinv, Cmult. cbn [fst snd pow]. field.
  repeat split; try lra. all: nra.
Qed.
Lemma Clog_right z : 0 < fst z -> Clog z = (ln (sqrt (fst z * fst z + snd z * snd z)), atan (snd z / fst z)).
Proof. intros H. unfold Clog, Carg, atan2R. rewrite Cmod_alt. destruct (Rlt_dec 0 (fst z)); [reflexivity|contradiction]. Qed.

(** a complex function of a real variable with bounded derivative *)
Lemma mv_bound (f df : R -> C) M : 
  (forall t, 0 <= t <= 1 -> is_derive (fun t => fst (f t)) t (fst (df t)) /\ is_derive (fun t => snd (f t)) t (snd (df t))) ->
  (forall t, 0 <= t <= 1 -> Cmod (df t) <= M) ->
  f 0 = RtoC 0 -> Cmod (f 1) <= 2 * M.
Proof.
  intros D B Z.
  assert (G : forall p : C -> R, (forall z, Rabs (p z) <= Cmod z) -> p (RtoC 0) = 0 ->
     (forall t, 0 <= t <= 1 -> is_derive (fun t => p (f t)) t (p (df t))) -> Rabs (p (f 1)) <= M).
  { intros p Hp p0 Dp.
    destruct (MVT_gen (fun t => p (f t)) 0 1 (fun t => p (df t))) as (c & Hc & E).
    - intros t Ht. rewrite Rmin_left, Rmax_right in Ht by lra. apply Dp. lra.
    - intros t Ht. rewrite Rmin_left, Rmax_right in Ht by lra.
      apply continuity_pt_filterlim. apply (ex_derive_continuous (fun t => p (f t))). eexists. apply Dp. lra.
    - rewrite Rmin_left, Rmax_right in Hc by lra. rewrite Z, p0 in E.
      replace (p (f 1)) with (p (df c)) by lra. eapply Rle_trans; [apply Hp|]. apply B. lra. }
  assert (Hf : forall z : C, Rabs (fst z) <= Cmod z).
  { intros z. eapply Rle_trans; [|apply Rmax_Cmod]. apply Rmax_l. }
  assert (Hs : forall z : C, Rabs (snd z) <= Cmod z).
  { intros z. eapply Rle_trans; [|apply Rmax_Cmod]. apply Rmax_r. }
  pose proof (G fst Hf eq_refl (fun t Ht => proj1 (D t Ht))) as G1.
  pose proof (G snd Hs eq_refl (fun t Ht => proj2 (D t Ht))) as G2.
  replace (f 1) with (Cplus (RtoC (fst (f 1))) (Cmult Ci (RtoC (snd (f 1))))).
  - eapply Rle_trans; [apply Cmod_triangle|]. rewrite Cmod_mult, !Cmod_R.
    replace (Cmod Ci) with 1; [lra|]. unfold Cmod, Ci. cbn [fst snd]. replace (0 ^ 2 + 1 ^ 2) with 1 by ring. symmetry; apply sqrt_1.
  - destruct (f 1) as [u v]. unfold RtoC, Ci, Cplus, Cmult. cbn. f_equal; ring.
Qed.

Lemma deriv_cpow_ray (z : C) k t :
  is_derive (fun t => fst (Cmult (RtoC (t ^ S k / INR (S k))) z)) t (fst (Cmult (RtoC (t ^ k)) z)) /\
  is_derive (fun t => snd (Cmult (RtoC (t ^ S k / INR (S k))) z)) t (snd (Cmult (RtoC (t ^ k)) z)).
Proof.
  assert (P : INR (S k) <> 0) by (apply not_0_INR; lia).
  destruct z as [a b]. unfold Cmult, RtoC. cbn [fst snd].
  split.
  - apply (is_derive_ext (fun t => (a / INR (S k)) * t ^ S k)); [intros u; toR; field; exact P|].
    evar_last; [apply (is_derive_scal (fun t => t ^ S k)); apply is_derive_pow; apply (is_derive_id t)|].
    change one with 1. cbn [Nat.pred]. change scal with Rmult. toR. field. exact P.
  - apply (is_derive_ext (fun t => (b / INR (S k)) * t ^ S k)); [intros u; toR; field; exact P|].
    evar_last; [apply (is_derive_scal (fun t => t ^ S k)); apply is_derive_pow; apply (is_derive_id t)|].
    change one with 1. cbn [Nat.pred]. change scal with Rmult. toR. field. exact P.
Qed.

Definition logterm (z : C) (k : nat) : C := Cdiv (Cpow z (S k)) (RtoC (INR (S k))).
Lemma log_remainder z K : Cmod z < 1 ->
  Cmod (Cminus (Csum (logterm z) K) (Copp (Clog (Cminus (RtoC 1) z)))) <= 2 * (Cmod z ^ S K / (1 - Cmod z)).
Proof.
  intros H. pose proof (Cmod_ge_0 z) as Z0.
  assert (Re : Rabs (fst z) <= Cmod z) by (eapply Rle_trans; [|apply Rmax_Cmod]; apply Rmax_l).
  assert (Pos : forall t, 0 <= t <= 1 -> 0 < 1 - t * fst z).
  { intros t Ht. assert (t * fst z <= Cmod z); [|lra]. pose proof (Rle_abs (fst z)). nra. }
  set (Sx := fun t => Csum (fun k => Cmult (RtoC (t ^ (S k) / INR (S k))) (Cpow z (S k))) K).
  set (dS := fun t => Csum (fun k => Cmult (RtoC (t ^ k)) (Cpow z (S k))) K).
  pose (f := fun t => Cplus (Sx t) (Clog (Cminus (RtoC 1) (Cmult (RtoC t) z)))).
  pose (df := fun t => Cminus (dS t) (Cdiv z (Cminus (RtoC 1) (Cmult (RtoC t) z)))).
  assert (E1 : Cminus (Csum (logterm z) K) (Copp (Clog (Cminus (RtoC 1) z))) = f 1).
  { unfold f, Sx. replace (Cmult (RtoC 1) z) with z by ring.
    replace (Csum (logterm z) K) with (Csum (fun k => Cmult (RtoC (1 ^ S k / INR (S k))) (Cpow z (S k))) K); [ring|].
    clear. induction K as [|K IH]; [reflexivity|]. cbn [Csum]. rewrite IH. f_equal. unfold logterm. rewrite pow1.
    unfold Rdiv. rewrite Rmult_1_l, RtoC_inv by (apply not_0_INR; lia). unfold Cdiv. ring. }
  rewrite E1. apply (mv_bound f df).
  - intros t Ht. unfold f, df.
    assert (DS : is_derive (fun t => fst (Sx t)) t (fst (dS t)) /\ is_derive (fun t => snd (Sx t)) t (snd (dS t))).
    { unfold Sx, dS. clear. induction K as [|K [I1 I2]]; [split; apply (is_derive_const 0)|].
      cbn [Csum]. destruct (deriv_cpow_ray (Cpow z (S K)) K t) as [J1 J2]. split.
      - apply (is_derive_plus (fun t => fst (Csum _ K)) (fun t => fst _)); assumption.
      - apply (is_derive_plus (fun t => snd (Csum _ K)) (fun t => snd _)); assumption. }
    destruct DS as [DS1 DS2].
    assert (Ex : locally t (fun u => 0 < 1 - u * fst z)).
    { pose proof (Pos t Ht) as P.
      assert (Cn : continuous (fun u => 1 - u * fst z) t).
      { apply (continuous_minus (fun _ => 1) (fun u => u * fst z)); [apply continuous_const|]. apply (continuous_mult (fun u => u) (fun _ => fst z)); [apply continuous_id|apply continuous_const]. }
      apply (Cn (fun v => 0 < v)). apply (open_gt 0). exact P. }
    destruct z as [a b]. cbn [fst snd] in Ex, Pos.
    split.
    + apply (is_derive_plus (fun t => fst (Sx t)) (fun t => fst (Clog (Cminus (RtoC 1) (Cmult (RtoC t) (a,b)))))); [exact DS1|].
      apply (is_derive_ext_loc (fun t => ln (sqrt ((1 - t * a) * (1 - t * a) + (- (t * b)) * (- (t * b)))))).
      * revert Ex. apply filter_imp. intros u Hu. rewrite rescale. cbn [fst snd]. rewrite Clog_right by (cbn; exact Hu). reflexivity.
      * rewrite rescale. cbn [fst snd]. apply log_ray_re. apply Pos; exact Ht.
    + apply (is_derive_plus (fun t => snd (Sx t)) (fun t => snd (Clog (Cminus (RtoC 1) (Cmult (RtoC t) (a,b)))))); [exact DS2|].
      apply (is_derive_ext_loc (fun t => atan (- (t * b) / (1 - t * a)))).
      * revert Ex. apply filter_imp. intros u Hu. rewrite rescale. cbn [fst snd]. rewrite Clog_right by (cbn; exact Hu). reflexivity.
      * rewrite rescale. cbn [fst snd]. apply log_ray_im. apply Pos; exact Ht.
  - intros t Ht. unfold df.
    set (d := Cminus (RtoC 1) (Cmult (RtoC t) z)).
    assert (Md : 1 - Cmod z <= Cmod d).
    { apply Rle_trans with (fst d); [|eapply Rle_trans; [apply Rle_abs|]; eapply Rle_trans; [|apply Rmax_Cmod]; apply Rmax_l].
      unfold d. rewrite rescale. cbn [fst]. pose proof (Rle_abs (fst z)). nra. }
    assert (Dn : d <> RtoC 0) by (apply Cmod_gt_0; lra).
    assert (GS : Cmult d (dS t) = Cminus z (Cmult (RtoC (t ^ K)) (Cpow z (S K)))).
    { unfold dS, d. clear. induction K as [|K IH]; [cbn [Csum Cpow pow]; ring|]. cbn [Csum]. rewrite Cmult_plus_distr_l, IH.
      cbn [pow Cpow]. rewrite RtoC_mult. ring. }
    replace (Cminus (dS t) (Cdiv z d)) with (Cdiv (Copp (Cmult (RtoC (t ^ K)) (Cpow z (S K)))) d).
    2:{ replace (dS t) with (Cdiv (Cmult d (dS t)) d) by (field; exact Dn). rewrite GS. field. exact Dn. }
    rewrite Cmod_div, Cmod_opp, Cmod_mult, Cpow_mod, Cmod_R by exact Dn.
    assert (0 <= t ^ K <= 1). { split; [apply pow_le; lra|]. rewrite <- (pow1 K). apply pow_incr. lra. }
    rewrite Rabs_pos_eq by lra. assert (0 <= Cmod z ^ S K) by (apply pow_le; exact Z0).
    apply Rmult_le_compat; [nra|left; apply Rinv_0_lt_compat; lra|nra|]. apply Rinv_le_contravar; lra.
  - unfold f, Sx. replace (Cmult (RtoC 0) z) with (RtoC 0) by ring.
    replace (Cminus (RtoC 1) (RtoC 0)) with (RtoC 1) by ring.
    rewrite Clog_pos by lra. rewrite ln_1.
    assert (Csum (fun k => Cmult (RtoC (0 ^ S k / INR (S k))) (Cpow z (S k))) K = RtoC 0) as ->; [|ring].
    clear. induction K as [|K IH]; [reflexivity|]. cbn [Csum]. rewrite IH. cbn [pow]. unfold Rdiv. rewrite !Rmult_0_l. ring.
Qed.
Lemma log_series z : Cmod z < 1 -> Csums (logterm z) (Copp (Clog (Cminus (RtoC 1) z))).
Proof.
  intros H. pose proof (Cmod_ge_0 z) as Z0.
  apply (Csums_bound _ _ (fun K => 2 * Cmod z / (1 - Cmod z) * Cmod z ^ K)).
  - intros K. eapply Rle_trans; [apply log_remainder; exact H|]. right. cbn [pow]. field. lra.
  - replace (Finite 0) with (Rbar_mult (2 * Cmod z / (1 - Cmod z)) 0) by (cbn; f_equal; ring). apply is_lim_seq_scal_l. apply lim_pow. lra.
Qed.
