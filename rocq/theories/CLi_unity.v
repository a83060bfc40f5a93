(** * The polylogarithm near 1: CLi n (e^w) = polynomial + w^(n-1)/(n-1)! (H_(n-1) - Log(-w)) + error.
    Nothing here mentions the code. *)
From Coq Require Import ZArith Reals List Bool Lra Lia Psatz.
From Coquelicot Require Import Coquelicot.
From Verif Require Import NumR Spec Cplx Clog_series Chain Polylog Fourier Clausen Ccalc CLi CLi_disc CLi_inv Unity Rest Cpoly.
Import ListNotations.
Local Open Scope R_scope.

Definition IGc (n : nat) : R := if (n =? 1)%nat then 0 else ReLi n 1.
Fixpoint IG (b : list R) (n : nat) : list R := match n with O => b | S n' => il (IGc (S n')) (IG b n') end.
Definition Lm (n : nat) (w : C) : C := match n with
  | O => Copp (Cinv w)
  | S m => Cmult (Cmult (RtoC (inv_fact m)) (Cpow w m)) (Cminus (RtoC (Hm m)) (Clog (Copp w)))
  end.
Definition EU (b : list R) (n : nat) (w : C) : C := Cminus (Cminus (CLi n (Cexp w)) (cpev (IG b n) w)) (Lm n w).

Lemma if_S m : inv_fact (S m) * INR (S m) = inv_fact m.
Proof. unfold inv_fact. rewrite fact_simpl, mult_INR. field. split; [apply INR_fact_neq_0|apply not_0_INR; lia]. Qed.
Lemma Copp_ne z : z <> RtoC 0 -> Copp z <> RtoC 0.
Proof. intros H E. apply H. destruct z as [a b]. unfold Copp, RtoC in *. cbn in E. injection E as E1 E2. f_equal; lra. Qed.
Lemma Lm_der n f t d : snd (f t) <> 0 -> cder f t d -> cder (fun s => Lm (S n) (f s)) t (Cmult d (Lm n (f t))).
Proof.
  intros H D. assert (F0 : f t <> RtoC 0) by (intros E; apply H; rewrite E; reflexivity).
  assert (G0 : Copp (f t) <> RtoC 0) by (apply Copp_ne, F0).
  assert (DL : cder (fun s => Clog (Copp (f s))) t (Cdiv d (f t))).
  { eapply cder_eq; [|apply cder_Clog; [right; cbn; lra|apply cder_opp; exact D]]. cbv beta. field. split; assumption. }
  destruct n as [|n]; unfold Lm.
  - apply (cder_ext (fun s => Copp (Clog (Copp (f s))))).
    + intros s. unfold inv_fact. cbn [fact INR Hm Cpow]. rewrite Rinv_1. ring.
    + eapply cder_eq; [|apply cder_opp, DL]. field. exact F0.
  - eapply cder_eq; [|apply cder_mult; [apply cder_scal, cder_pow; exact D|apply (cder_minus (fun _ => RtoC (Hm (S n)))); [apply cder_const|exact DL]]].
    rewrite <- (if_S n). cbn [Hm]. rewrite RtoC_plus, RtoC_mult, Cpow_S, RtoC_inv by (apply not_0_INR; lia).
    field. split; [exact F0|apply INR_C].
Qed.
Lemma IG_der b n f t d : cder f t d -> cder (fun s => cpev (IG b (S n)) (f s)) t (Cmult d (cpev (IG b n) (f t))).
Proof. intros D. cbn [IG]. apply il_der, D. Qed.
Lemma cder_s t y : cder (fun s => (s, y)) t (RtoC 1).
Proof. unfold cder. cbn. split; [apply (is_derive_id (K := R_AbsRing))|apply (is_derive_const (V := R_NormedModule))]. Qed.
Lemma cder_y s t : cder (fun y => (s, y)) t Ci.
Proof. unfold cder. cbn. split; [apply (is_derive_const (V := R_NormedModule))|apply (is_derive_id (K := R_AbsRing))]. Qed.
Lemma EU_s b n s y : 0 < y < 2 * PI -> cder (fun s => EU b (S n) (s, y)) s (EU b n (s, y)).
Proof.
  intros Hy. unfold EU. eapply cder_eq; [|apply cder_minus; [apply cder_minus; [apply CLi_der_log, Cexp_slit, Hy|apply IG_der, cder_s]|apply Lm_der; [cbn; lra|apply cder_s]]]. cbv beta. ring.
Qed.
Lemma EU_y b n y : 0 < y < 2 * PI -> cder (fun y => EU b (S n) (0, y)) y (Cmult Ci (EU b n (0, y))).
Proof.
  intros Hy. unfold EU. eapply cder_eq; [|apply cder_minus; [apply cder_minus; [apply CLi_circle_der', Hy|apply IG_der, cder_y]|apply Lm_der; [cbn; lra|apply cder_y]]]. cbv beta. ring.
Qed.

(** ** limits at 0+ *)
Definition lim0 (f : R -> C) : Prop := forall e, 0 < e -> exists d, 0 < d /\ forall y, 0 < y < d -> Cmod (f y) < e.
Lemma lim0_minus f g : lim0 f -> lim0 g -> lim0 (fun y => Cminus (f y) (g y)).
Proof.
  intros F G e He. destruct (F (e / 2) ltac:(lra)) as (d1 & H1 & F1). destruct (G (e / 2) ltac:(lra)) as (d2 & H2 & G1).
  exists (Rmin d1 d2). split; [apply Rmin_glb_lt; assumption|]. intros y [Hy1 Hy2].
  pose proof (Rmin_l d1 d2). pose proof (Rmin_r d1 d2).
  specialize (F1 y ltac:(lra)). specialize (G1 y ltac:(lra)). unfold Cminus. eapply Rle_lt_trans; [apply Cmod_triangle|]. rewrite Cmod_opp. lra.
Qed.
Lemma lim0_cont f : ccont f 0 -> f 0 = RtoC 0 -> lim0 f.
Proof.
  intros [C1 C2] E e He. apply (proj1 (filterlim_locally _ _)) with (eps := mkposreal (e / 2) ltac:(lra)) in C1. apply (proj1 (filterlim_locally _ _)) with (eps := mkposreal (e / 2) ltac:(lra)) in C2.
  destruct C1 as [d1 C1]. destruct C2 as [d2 C2]. exists (Rmin d1 d2). split; [apply Rmin_glb_lt; [apply (cond_pos d1)|apply (cond_pos d2)]|].
  intros y [Hy1 Hy2]. pose proof (Rmin_l d1 d2). pose proof (Rmin_r d1 d2).
  assert (A : forall d : R, y < d -> Rabs (y - 0) < d) by (intros; rewrite Rminus_0_r, Rabs_pos_eq; lra).
  specialize (C1 y (A d1 ltac:(lra))). specialize (C2 y (A d2 ltac:(lra))). rewrite E in C1, C2.
  change (Rabs (fst (f y) - 0) < e / 2) in C1. change (Rabs (snd (f y) - 0) < e / 2) in C2. rewrite Rminus_0_r in C1, C2.
  pose proof (Cmod_le_sum (f y)). lra.
Qed.
Lemma lim0_ext f g : (forall y, 0 < y < 1 -> f y = g y) -> lim0 f -> lim0 g.
Proof.
  intros H F e He. destruct (F e He) as (d & Hd & F1). exists (Rmin d 1). split; [apply Rmin_glb_lt; lra|].
  intros y [Hy1 Hy2]. pose proof (Rmin_l d 1). pose proof (Rmin_r d 1). rewrite <- H by lra. apply F1. lra.
Qed.
Lemma lim0_bound f c : (forall y, 0 < y < 1 -> Cmod (f y) <= c * sqrt y) -> lim0 f.
Proof.
  intros H e He. destruct (Rle_lt_dec c 0) as [Hc|Hc].
  - exists 1. split; [lra|]. intros y Hy. eapply Rle_lt_trans; [apply H; exact Hy|]. pose proof (sqrt_pos y). nra.
  - exists (Rmin 1 ((e / c) * (e / c))). assert (P : 0 < e / c) by (apply Rdiv_lt_0_compat; assumption). split; [apply Rmin_glb_lt; [lra|apply Rmult_lt_0_compat; assumption]|].
    intros y [Hy1 Hy2]. pose proof (Rmin_l 1 ((e / c) * (e / c))). pose proof (Rmin_r 1 ((e / c) * (e / c))).
    eapply Rle_lt_trans; [apply H; lra|]. assert (S1 : sqrt y < e / c). { rewrite <- (sqrt_square (e / c)) by lra. apply sqrt_lt_1; lra. }
    apply Rmult_lt_compat_l with (r := c) in S1; [|exact Hc]. replace (c * (e / c)) with e in S1 by (field; lra). exact S1.
Qed.
Lemma Clog_im y : 0 < y -> Clog (Copp (0, y)) = (ln y, - (PI / 2)).
Proof.
  intros Hy. unfold Clog, Carg. cbn [Copp fst snd]. f_equal.
  - f_equal. rewrite Cmod_alt. cbn. replace (- 0 * - 0 + - y * - y) with (y * y) by ring. apply sqrt_square. lra.
  - rewrite atan2_negy by lra. replace (- 0 / - y) with 0 by (field; lra). rewrite atan_0. lra.
Qed.
Lemma Cmod_im y : 0 <= y -> Cmod (0, y) = y.
Proof. intros Hy. rewrite Cmod_alt. cbn. replace (0 * 0 + y * y) with (y * y) by ring. apply sqrt_square. lra. Qed.
Lemma Lm_lim n : lim0 (fun y => Lm (S (S n)) (0, y)).
Proof.
  apply (lim0_bound _ (inv_fact (S n) * (Rabs (Hm (S n)) + 3 + PI / 2))). intros y Hy.
  cbn [Lm]. rewrite Clog_im by lra. rewrite !Cmod_mult, Cmod_R, Rabs_pos_eq by (left; apply inv_fact_pos).
  rewrite Cpow_mod, Cmod_im by lra. rewrite !Rmult_assoc. apply Rmult_le_compat_l; [left; apply inv_fact_pos|].
  assert (S1 : 0 < sqrt y) by (apply sqrt_lt_R0; lra). assert (S2 : sqrt y * sqrt y = y) by (apply sqrt_sqrt; lra).
  assert (S3 : sqrt y <= 1) by nra. assert (S4 : y <= sqrt y) by nra.
  assert (M : Cmod (Cminus (RtoC (Hm (S n))) (ln y, - (PI / 2))) <= Rabs (Hm (S n)) + Rabs (ln y) + PI / 2).
  { unfold Cminus. eapply Rle_trans; [apply Cmod_triangle|]. rewrite Cmod_opp, Cmod_R. pose proof (Cmod_le_sum (ln y, - (PI / 2))) as Q. cbn [fst snd] in Q. rewrite Rabs_Ropp, (Rabs_pos_eq (PI / 2)) in Q by (pose proof PI_RGT_0; lra). lra. }
  pose proof (xlnx_bound y) as X. rewrite Rabs_mult, !(Rabs_pos_eq y) in X by lra.
  assert (P0 : 0 <= y ^ n <= 1). { split; [apply pow_le; lra|]. rewrite <- (pow1 n). apply pow_incr. lra. }
  pose proof (Cmod_ge_0 (Cminus (RtoC (Hm (S n))) (ln y, - (PI / 2)))) as M0. set (m := Cmod (Cminus (RtoC (Hm (S n))) (ln y, - (PI / 2)))) in *. clearbody m.
  apply Rle_trans with (y * (Rabs (Hm (S n)) + Rabs (ln y) + PI / 2)).
  - cbn [pow]. apply Rle_trans with (y * m); [|apply Rmult_le_compat_l; lra].
    replace (y * y ^ n * m) with (y ^ n * (y * m)) by ring. rewrite <- (Rmult_1_l (y * m)) at 2. apply Rmult_le_compat_r; [apply Rmult_le_pos; lra|lra].
  - pose proof PI_RGT_0. pose proof (Rabs_pos (Hm (S n))) as A0. set (a := Rabs (Hm (S n))) in *. clearbody a. set (l := Rabs (ln y)) in *. clearbody l.
    assert (y * a <= sqrt y * a) by (apply Rmult_le_compat_r; lra). assert (y * (PI / 2) <= sqrt y * (PI / 2)) by (apply Rmult_le_compat_r; lra). nra.
Qed.
Lemma cpev_at0 a l : cpev (il a l) (RtoC 0) = RtoC a.
Proof. unfold il. cbn [cpev]. ring. Qed.
Lemma EU_lim b n : lim0 (fun y => EU b (S (S n)) (0, y)).
Proof.
  apply lim0_minus; [|apply Lm_lim].
  apply (lim0_ext (fun y => Cminus (cosser (S (S n)) y, sinser (S (S n)) y) (cpev (IG b (S (S n))) (0, y)))).
  - intros y Hy. pose proof PI_RGT_0. pose proof PI2_1. rewrite CLi_circle; [reflexivity|lia|apply circle_ne1; lra].
  - apply lim0_cont.
    + apply ccont_minus; [split; cbn; [apply cosser_continuous|apply sinser_continuous]; lia|].
      apply cpev_cont. eapply cder_cont, cder_y.
    + cbn [IG]. change (0, 0) with (RtoC 0). rewrite cpev_at0, cosser_0, sinser_0 by lia. unfold IGc. cbn [Nat.eqb].
      unfold Cminus, Cplus, Copp, RtoC. cbn. f_equal; ring.
Qed.
Lemma sin_le_x x : 0 <= x -> sin x <= x.
Proof. intros Hx. destruct (Req_dec x 0) as [->|N]; [rewrite sin_0; lra|]. left. apply sin_lt_x. lra. Qed.
Lemma cos_low x : 0 <= x <= 1 -> 1 - x * x / 2 <= cos x.
Proof.
  intros Hx. pose proof PI2_1. replace (cos x) with (cos (2 * (x / 2))) by (f_equal; field). rewrite cos_2a_sin.
  pose proof (sin_le_x (x / 2) ltac:(lra)) as S1. assert (S0 : 0 <= sin (x / 2)) by (apply sin_ge_0; lra). nra.
Qed.
Lemma sinc_low x : 0 <= x <= 1 -> x - x * x / 2 <= sin x <= x.
Proof.
  intros Hx. split; [|apply sin_le_x; lra].
  set (g := fun t => sin t - (t - t * t / 2)).
  destruct (MVT_gen g 0 x (fun t => cos t - (1 - t))) as (c & Hc & E).
  - intros u _. unfold g. auto_derive; [trivial|field].
  - intros u _. apply (continuity_pt_filterlim g u). apply (ex_derive_continuous g). unfold g. auto_derive. trivial.
  - rewrite Rmin_left, Rmax_right in Hc by lra. pose proof (cos_low c ltac:(lra)) as CL.
    assert (P : 0 <= (cos c - (1 - c)) * (x - 0)) by (apply Rmult_le_pos; nra). rewrite <- E in P. unfold g in P. rewrite sin_0 in P. lra.
Qed.
Lemma EU1_lim b : lim0 (fun y => EU b 1 (0, y)).
Proof.
  apply (lim0_ext (fun y => Cminus (- ln (2 * sin (y / 2) / y), - (y / 2)) (cpev (IG b 1) (0, y)))).
  - intros y Hy. pose proof PI_RGT_0. pose proof PI2_1.
    assert (SP : 0 < sin (y / 2)) by (apply sin_gt_0; lra).
    unfold EU. cbn [CLi]. rewrite Clog1m_circle by lra. unfold Lm, inv_fact. cbn [fact INR Hm Cpow]. rewrite Clog_im by lra. rewrite Rinv_1.
    rewrite ln_div by lra. generalize (cpev (IG b 1) (0, y)). intros p. unfold Cminus, Cplus, Copp, Cmult, RtoC. cbn. f_equal; field.
  - apply lim0_minus.
    + apply (lim0_bound _ 2). intros y Hy. eapply Rle_trans; [apply Cmod_le_sum|]. cbn [fst snd]. rewrite !Rabs_Ropp, (Rabs_pos_eq (y / 2)) by lra.
      pose proof (sinc_low (y / 2) ltac:(lra)) as [B1 B2].
      assert (Q1 : 1 - y / 4 <= 2 * sin (y / 2) / y). { apply Rmult_le_reg_r with y; [lra|]. unfold Rdiv at 2. rewrite Rmult_assoc, Rinv_l by lra. nra. }
      assert (Q2 : 2 * sin (y / 2) / y <= 1). { apply Rmult_le_reg_r with y; [lra|]. unfold Rdiv at 1. rewrite Rmult_assoc, Rinv_l by lra. nra. }
      set (q := 2 * sin (y / 2) / y) in *. clearbody q.
      assert (L1 : ln q <= 0). { rewrite <- ln_1. apply ln_le; lra. }
      assert (L2 : - y <= ln q).
      { rewrite <- (ln_exp (- y)). apply ln_le; [apply exp_pos|]. eapply Rle_trans; [|exact Q1].
        pose proof (exp_ineq1_le y) as EX. rewrite exp_Ropp. apply Rmult_le_reg_l with (exp y); [apply exp_pos|]. rewrite Rinv_r by (pose proof (exp_pos y); lra). nra. }
      rewrite Rabs_left1 by exact L1.
      assert (S1 : 0 < sqrt y) by (apply sqrt_lt_R0; lra). assert (S2 : sqrt y * sqrt y = y) by (apply sqrt_sqrt; lra). nra.
    + apply lim0_cont; [apply cpev_cont; eapply cder_cont, cder_y|]. cbn [IG]. change (0, 0) with (RtoC 0). rewrite cpev_at0. reflexivity.
Qed.
Lemma EU_lim' b n : lim0 (fun y => EU b (S n) (0, y)).
Proof. destruct n; [apply EU1_lim|apply EU_lim]. Qed.

(** ** the bound *)
Lemma isd_powc (k a : R) (sg : R) M t : is_derive (fun t => k * inv_fact (S M) * (a + sg * t) ^ S M) t (sg * (k * inv_fact M * (a + sg * t) ^ M)).
Proof.
  rewrite <- (if_S M). generalize (inv_fact (S M)). intros g. evar_last.
  - apply (is_derive_scal (fun t => (a + sg * t) ^ S M) t (k * g)). apply (is_derive_pow (fun t => a + sg * t) (S M) t sg). auto_derive; [trivial|ring].
  - change (Init.Nat.pred (S M)) with M. change (scal ?a ?b) with (a * b). toR. generalize (INR (S M)). intros i. ring.
Qed.
Lemma Cmod_mono s y s' : Rabs s' <= Rabs s -> Cmod (s', y) <= Cmod (s, y).
Proof. intros H. rewrite !Cmod_alt. cbn. apply sqrt_le_1_alt. pose proof (Rsqr_le_abs_1 s' s H). unfold Rsqr in *. lra. Qed.
Lemma Cmod_mono_y y y' : 0 <= y' <= y -> Cmod (0, y') <= Cmod (0, y).
Proof. intros H. rewrite !Cmod_im by lra. lra. Qed.

Theorem EU_bound b rho eps : (forall s y, 0 < y <= PI -> Cmod (s, y) <= rho -> Cmod (EU b 0 (s, y)) <= eps) ->
  forall n s y, 0 < y <= PI -> Cmod (s, y) <= rho -> Cmod (EU b n (s, y)) <= eps * inv_fact n * (Rabs s + y) ^ n.
Proof.
  intros H0. induction n as [|n IH]; intros s y Hy Hr.
  - unfold inv_fact. cbn. rewrite Rinv_1, !Rmult_1_r. apply H0; assumption.
  - pose proof PI_RGT_0 as P0.
    (* circle *)
    assert (CB : forall y, 0 < y <= PI -> Cmod (0, y) <= rho -> Cmod (EU b (S n) (0, y)) <= eps * inv_fact (S n) * y ^ S n).
    { clear s y Hy Hr. intros y Hy Hr. apply Rnot_lt_le. intros LT. set (gap := Cmod (EU b (S n) (0, y)) - eps * inv_fact (S n) * y ^ S n) in *.
      assert (G : 0 < gap) by (unfold gap; lra).
      assert (E0 : 0 <= eps). { eapply Rle_trans; [apply Cmod_ge_0|apply (H0 0 y Hy Hr)]. }
      destruct (EU_lim' b n gap G) as (d & Hd & L). set (q := Rmin (d / 2) y). assert (Q : 0 < q <= y /\ q < d).
      { unfold q. pose proof (Rmin_l (d / 2) y). pose proof (Rmin_r (d / 2) y). split; [split; [apply Rmin_glb_lt; lra|assumption]|lra]. }
      specialize (L q ltac:(lra)).
      assert (M := cmv (fun y => EU b (S n) (0, y)) (fun y => Cmult Ci (EU b n (0, y))) (fun t => eps * inv_fact (S n) * (0 + 1 * t) ^ S n) (fun t => 1 * (eps * inv_fact n * (0 + 1 * t) ^ n)) q y).
      cbv beta in M. assert (M' : Cmod (Cminus (EU b (S n) (0, y)) (EU b (S n) (0, q))) <= eps * inv_fact (S n) * (0 + 1 * y) ^ S n - eps * inv_fact (S n) * (0 + 1 * q) ^ S n).
      { apply M.
        - lra.
        - intros t Ht. apply EU_y. lra.
        - intros t Ht. apply isd_powc.
        - intros t Ht. eapply cder_cont, EU_y. lra.
        - intros t Ht. apply (ex_derive_continuous (fun t => eps * inv_fact (S n) * (0 + 1 * t) ^ S n)). eexists. apply isd_powc.
        - intros t Ht. rewrite Cmod_mult. replace (Cmod Ci) with 1 by (change Ci with (0, 1); rewrite Cmod_im; lra). rewrite !Rmult_1_l, Rplus_0_l.
          specialize (IH 0 t ltac:(lra)). rewrite Rabs_R0, Rplus_0_l in IH. apply IH. eapply Rle_trans; [apply (Cmod_mono_y y); lra|exact Hr]. }
      rewrite !Rplus_0_l, !Rmult_1_l in M'.
      assert (Z : 0 <= eps * inv_fact (S n) * q ^ S n) by (apply Rmult_le_pos; [apply Rmult_le_pos; [exact E0|left; apply inv_fact_pos]|apply pow_le; lra]).
      assert (T : Cmod (EU b (S n) (0, y)) <= Cmod (Cminus (EU b (S n) (0, y)) (EU b (S n) (0, q))) + Cmod (EU b (S n) (0, q))).
      { replace (EU b (S n) (0, y)) with (Cplus (Cminus (EU b (S n) (0, y)) (EU b (S n) (0, q))) (EU b (S n) (0, q))) at 1 by ring. apply Cmod_triangle. }
      unfold gap in *. lra. }
    assert (R0 : Cmod (0, y) <= rho). { eapply Rle_trans; [apply (Cmod_mono s y 0); rewrite Rabs_R0; apply Rabs_pos|exact Hr]. }
    specialize (CB y Hy R0).
    assert (T : forall x x' B B', Cmod x' <= B -> Cmod (Cminus x x') <= B' -> Cmod x <= B' + B).
    { intros x x' B B' X1 X2. replace x with (Cplus (Cminus x x') x') by ring. eapply Rle_trans; [apply Cmod_triangle|]. lra. }
    destruct (Rle_dec 0 s) as [Hs|Hs].
    + rewrite (Rabs_pos_eq s) in * by exact Hs.
      assert (M := cmv (fun s => EU b (S n) (s, y)) (fun s => EU b n (s, y)) (fun t => eps * inv_fact (S n) * (y + 1 * t) ^ S n) (fun t => 1 * (eps * inv_fact n * (y + 1 * t) ^ n)) 0 s).
      cbv beta in M. assert (M' : Cmod (Cminus (EU b (S n) (s, y)) (EU b (S n) (0, y))) <= eps * inv_fact (S n) * (y + 1 * s) ^ S n - eps * inv_fact (S n) * (y + 1 * 0) ^ S n).
      { apply M.
        - lra.
        - intros t Ht. apply EU_s. lra.
        - intros t Ht. apply isd_powc.
        - intros t Ht. eapply cder_cont, EU_s. lra.
        - intros t Ht. apply (ex_derive_continuous (fun t => eps * inv_fact (S n) * (y + 1 * t) ^ S n)). eexists. apply isd_powc.
        - intros t Ht. rewrite !Rmult_1_l, (Rplus_comm y t). rewrite <- (Rabs_pos_eq t) at 2 by lra. apply IH; [exact Hy|].
          eapply Rle_trans; [apply (Cmod_mono s y t); rewrite !Rabs_pos_eq; lra|exact Hr]. }
      rewrite Rmult_0_r, Rplus_0_r, Rmult_1_l in M'. rewrite (Rplus_comm s y). eapply Rle_trans; [apply (T _ _ _ _ CB M')|]. lra.
    + rewrite (Rabs_left1 s) in * by lra.
      assert (M := cmv (fun s => EU b (S n) (s, y)) (fun s => EU b n (s, y)) (fun t => - eps * inv_fact (S n) * (y + -1 * t) ^ S n) (fun t => -1 * (- eps * inv_fact n * (y + -1 * t) ^ n)) s 0).
      cbv beta in M. assert (M' : Cmod (Cminus (EU b (S n) (0, y)) (EU b (S n) (s, y))) <= - eps * inv_fact (S n) * (y + -1 * 0) ^ S n - - eps * inv_fact (S n) * (y + -1 * s) ^ S n).
      { apply M.
        - lra.
        - intros t Ht. apply EU_s. lra.
        - intros t Ht. apply isd_powc.
        - intros t Ht. eapply cder_cont, EU_s. lra.
        - intros t Ht. apply (ex_derive_continuous (fun t => - eps * inv_fact (S n) * (y + -1 * t) ^ S n)). eexists. apply isd_powc.
        - intros t Ht. specialize (IH t y Hy). rewrite (Rabs_left1 t) in IH by lra. replace (-1 * (- eps * inv_fact n * (y + -1 * t) ^ n)) with (eps * inv_fact n * (- t + y) ^ n).
          + apply IH. eapply Rle_trans; [apply (Cmod_mono s y t); rewrite !Rabs_left1; lra|exact Hr].
          + replace (y + -1 * t) with (- t + y) by ring. ring. }
      rewrite <- Cmod_opp in M'. replace (Copp (Cminus (EU b (S n) (0, y)) (EU b (S n) (s, y)))) with (Cminus (EU b (S n) (s, y)) (EU b (S n) (0, y))) in M' by ring.
      rewrite Rmult_0_r, Rplus_0_r in M'. replace (y + -1 * s) with (- s + y) in M' by ring. eapply Rle_trans; [apply (T _ _ _ _ CB M')|]. lra.
Qed.
