(** * Properties, part D: zeros of the Clausen functions (C38), no jumps at
    branch boundaries (C39), denominators (C40) *)
From Coq Require Import Reals Lra Lia ZArith List.
From Coquelicot Require Import Coquelicot.
From Flocq Require Import IEEE754.BinarySingleNaN.
From Verif Require Import Num Outcome Model_Cl16 Model_Cl Model_LiR NumR NumB Libm Polylog Polylog_eqs Fourier Eval_R Cheb Poly_check Cheb_big
  Cl_shape Cl_ratio Cl_ratio_l Proof_Li2 Proof_Li3 Proof_Li4 Proof_Special Clausen Proof_Cl Cl_full Properties_C.
Open Scope R_scope.

(** ** C40  denominators

    [horner] evaluates the coefficient table (C23: it is sum c_i y^i). *)
Definition positive_on (N : num) (val : R -> car N) (get : car N -> option R) (table : list (car N)) (a b : R) : Prop :=
  forall y, a <= y <= b -> exists q, get (horner N (val y) table) = Some q /\ 0 < q.
Definition pos_table (ep : R) (table : list (option R)) (a b : R) : Prop :=
  positive_on (NumR ep) (fun y => Some y) (fun v => v) table a b.

Lemma pos_of ep (l : list (Z * Z)) (t : list (option R)) a b : t = map (fun p => Some (litp p)) l -> l <> nil ->
  (forall y, a <= y <= b -> 0 < plit l y) -> pos_table ep t a b.
Proof. intros -> N H y Hy. exists (plit l y). rewrite horner_lit by exact N. split; [reflexivity|apply H; exact Hy]. Qed.
Lemma pos_scale K l y : scale_ok K l = true -> 0 < pz (zs_of K l) y -> 0 < plit l y.
Proof.
  intros H P. rewrite (plit_pz K l) by exact H. apply Rdiv_lt_0_compat; [exact P|].
  apply (IZR_lt 0). apply Z.pow_pos_nonneg; [lia|]. unfold scale_ok in H. rewrite Bool.andb_true_iff, Z.leb_le in H. tauto.
Qed.
Lemma pos_shift K l y : scale_ok K l = true -> 0 < pz (shift K l) y -> 0 < plit l (y - / 4).
Proof.
  intros H P. apply (pos_scale K); [exact H|]. unfold shift in P.
  destruct (acomp_ok (zs_of K l) (-1) 4 4 y ltac:(lia)) as [S E]. rewrite E in P. replace ((IZR (-1) + IZR 4 * y) / IZR 4) with (y - / 4) in P by field.
  apply (Rmult_lt_reg_l (IZR (snd (acomp (zs_of K l) (-1) 4 4)))); [apply (IZR_lt 0); exact S|lra].
Qed.

(** the real polylogarithms; the interval is the range of the variable in each branch (see C15-C18) *)
Theorem C40_Li2_float : pos_table eps_f (Li2_f_Q RF) (0) (1/2).
Proof.
  apply (pos_of _ (Li2_f_Q NumLit)); [reflexivity|discriminate|]. intros y Hy.
  destruct (ratio_list_ok _ _ _ _ _ _ _ _ _ _ _ check_f y ltac:(lra)) as [Q0 _].
  apply (pos_scale 11); [reflexivity|exact Q0].
Qed.
Theorem C40_Li2_double : pos_table eps_d (Li2_d_Q RD) (0) (1/2).
Proof.
  apply (pos_of _ (Li2_d_Q NumLit)); [reflexivity|discriminate|]. intros y Hy.
  destruct (ratio_list_ok _ _ _ _ _ _ _ _ _ _ _ check_d y ltac:(lra)) as [Q0 _].
  apply (pos_scale 23); [reflexivity|exact Q0].
Qed.
Theorem C40_Li2_long_double : pos_table eps_l (Li2_l_Q RL) (-1/4) (1/4).
Proof.
  apply (pos_of _ (Li2_l_Q NumLit)); [reflexivity|discriminate|]. intros y Hy.
  destruct (ratio_list_ok _ _ _ _ _ _ _ _ _ _ _ check_l (y + / 4) ltac:(lra)) as [Q0 _].
  replace y with (y + / 4 - / 4) by ring. apply (pos_shift 40); [reflexivity|exact Q0].
Qed.
Theorem C40_Li2_quad : pos_table eps_q (Li2_q_Q RQ) (-1/4) (1/4).
Proof.
  apply (pos_of _ (Li2_q_Q NumLit)); [reflexivity|discriminate|]. intros y Hy.
  destruct (ratio_list_ok _ _ _ _ _ _ _ _ _ _ _ check_q (y + / 4) ltac:(lra)) as [Q0 _].
  replace y with (y + / 4 - / 4) by ring. apply (pos_shift 45); [reflexivity|exact Q0].
Qed.
Theorem C40_Li3_neg : pos_table eps_d (li3_neg_cq RD) (-1) (0).
Proof.
  apply (pos_of _ (li3_neg_cq NumLit)); [reflexivity|discriminate|]. intros y Hy.
  destruct (ratio_list_ok _ _ _ _ _ _ _ _ _ _ _ check_3n y ltac:(lra)) as [Q0 _].
  apply (pos_scale 24); [reflexivity|exact Q0].
Qed.
Theorem C40_Li3_pos : pos_table eps_d (li3_pos_cq RD) (0) (1/2).
Proof.
  apply (pos_of _ (li3_pos_cq NumLit)); [reflexivity|discriminate|]. intros y Hy.
  destruct (ratio_list_ok _ _ _ _ _ _ _ _ _ _ _ check_3p y ltac:(lra)) as [Q0 _].
  apply (pos_scale 23); [reflexivity|exact Q0].
Qed.
Theorem C40_Li4_neg : pos_table eps_d (li4_neg_cq RD) (-1) (0).
Proof.
  apply (pos_of _ (li4_neg_cq NumLit)); [reflexivity|discriminate|]. intros y Hy.
  destruct (ratio_list_ok _ _ _ _ _ _ _ _ _ _ _ check_4n y ltac:(lra)) as [Q0 _].
  apply (pos_scale 24); [reflexivity|exact Q0].
Qed.
Theorem C40_Li4_half : pos_table eps_d (li4_half_cq RD) (0) (1/2).
Proof.
  apply (pos_of _ (li4_half_cq NumLit)); [reflexivity|discriminate|]. intros y Hy.
  destruct (ratio_list_ok _ _ _ _ _ _ _ _ _ _ _ check_4h y ltac:(lra)) as [Q0 _].
  apply (pos_scale 23); [reflexivity|exact Q0].
Qed.
Theorem C40_Li4_mid : pos_table eps_d (li4_mid_cq RD) (1/2) (4/5).
Proof.
  apply (pos_of _ (li4_mid_cq NumLit)); [reflexivity|discriminate|]. intros y Hy.
  destruct (ratio_list_ok _ _ _ _ _ _ _ _ _ _ _ check_4m y ltac:(lra)) as [Q0 _].
  apply (pos_scale 28); [reflexivity|exact Q0].
Qed.

(** the Clausen functions: below pi/2 the variable is x^2 in [0,(pi/2)^2] (long double Cl2..Cl4: x^2 - pi^2/8);
    above, (pi-x)^2 - pi^2/8 in [-pi^2/8, pi^2/8] *)
Theorem C40_Cl2_double : pos_table eps_d (Cl2_d_Q RD) 0 (pi_d / 2 * (pi_d / 2)) /\
  pos_table eps_d (Cl2_d_Q2 RD) (- (pi_d * pi_d / 8)) (pi_d * pi_d / 8).
Proof. 
  split.
  - apply (pos_of _ (Cl2_d_Q NumLit)); [reflexivity|discriminate|]. intros y Hy.
    assert (pi_d / 2 * (pi_d / 2) <= 987 / 400) by (unfold pi_d; lra).
    destruct (chk0_ok _ _ _ _ _ _ _ _ c2dN y ltac:(lra)) as [A _]. exact A.
  - apply (pos_of _ (Cl2_d_Q2 NumLit)); [reflexivity|discriminate|]. intros y Hy. change pi_d with Pd in Hy. rewrite P28d in Hy.
    assert (0 < - (IZR ud / IZR ed) <= 987 / 800) by (rewrite <- P28d; unfold Pd; lra).
    destruct (chkS_ok _ _ _ _ _ _ _ _ _ _ c2dF (y - IZR ud / IZR ed) ltac:(lra)) as [A _].
    replace (y - IZR ud / IZR ed + IZR ud / IZR ed) with y in A by ring. exact A.
Qed.
Theorem C40_Cl3_double : pos_table eps_d (Cl3_d_Q RD) 0 (pi_d / 2 * (pi_d / 2)) /\
  pos_table eps_d (Cl3_d_Q2 RD) (- (pi_d * pi_d / 8)) (pi_d * pi_d / 8).
Proof. 
  split.
  - apply (pos_of _ (Cl3_d_Q NumLit)); [reflexivity|discriminate|]. intros y Hy.
    assert (pi_d / 2 * (pi_d / 2) <= 987 / 400) by (unfold pi_d; lra).
    destruct (chk0_ok _ _ _ _ _ _ _ _ c3dN y ltac:(lra)) as [A _]. exact A.
  - apply (pos_of _ (Cl3_d_Q2 NumLit)); [reflexivity|discriminate|]. intros y Hy. change pi_d with Pd in Hy. rewrite P28d in Hy.
    assert (0 < - (IZR ud / IZR ed) <= 987 / 800) by (rewrite <- P28d; unfold Pd; lra).
    destruct (chkS_ok _ _ _ _ _ _ _ _ _ _ c3dF (y - IZR ud / IZR ed) ltac:(lra)) as [A _].
    replace (y - IZR ud / IZR ed + IZR ud / IZR ed) with y in A by ring. exact A.
Qed.
Theorem C40_Cl4_double : pos_table eps_d (Cl4_d_Q RD) 0 (pi_d / 2 * (pi_d / 2)) /\
  pos_table eps_d (Cl4_d_Q2 RD) (- (pi_d * pi_d / 8)) (pi_d * pi_d / 8).
Proof. 
  split.
  - apply (pos_of _ (Cl4_d_Q NumLit)); [reflexivity|discriminate|]. intros y Hy.
    assert (pi_d / 2 * (pi_d / 2) <= 987 / 400) by (unfold pi_d; lra).
    destruct (chk0_ok _ _ _ _ _ _ _ _ c4dN y ltac:(lra)) as [A _]. exact A.
  - apply (pos_of _ (Cl4_d_Q2 NumLit)); [reflexivity|discriminate|]. intros y Hy. change pi_d with Pd in Hy. rewrite P28d in Hy.
    assert (0 < - (IZR ud / IZR ed) <= 987 / 800) by (rewrite <- P28d; unfold Pd; lra).
    destruct (chkS_ok _ _ _ _ _ _ _ _ _ _ c4dF (y - IZR ud / IZR ed) ltac:(lra)) as [A _].
    replace (y - IZR ud / IZR ed + IZR ud / IZR ed) with y in A by ring. exact A.
Qed.
Theorem C40_Cl5_double : pos_table eps_d (Cl5_d_Q RD) 0 (pi_d / 2 * (pi_d / 2)) /\
  pos_table eps_d (Cl5_d_Q2 RD) (- (pi_d * pi_d / 8)) (pi_d * pi_d / 8).
Proof. 
  split.
  - apply (pos_of _ (Cl5_d_Q NumLit)); [reflexivity|discriminate|]. intros y Hy.
    assert (pi_d / 2 * (pi_d / 2) <= 987 / 400) by (unfold pi_d; lra).
    destruct (chk0_ok _ _ _ _ _ _ _ _ c5dN y ltac:(lra)) as [A _]. exact A.
  - apply (pos_of _ (Cl5_d_Q2 NumLit)); [reflexivity|discriminate|]. intros y Hy. change pi_d with Pd in Hy. rewrite P28d in Hy.
    assert (0 < - (IZR ud / IZR ed) <= 987 / 800) by (rewrite <- P28d; unfold Pd; lra).
    destruct (chkS_ok _ _ _ _ _ _ _ _ _ _ c5dF (y - IZR ud / IZR ed) ltac:(lra)) as [A _].
    replace (y - IZR ud / IZR ed + IZR ud / IZR ed) with y in A by ring. exact A.
Qed.
Theorem C40_Cl6_double : pos_table eps_d (Cl6_d_Q RD) 0 (pi_d / 2 * (pi_d / 2)) /\
  pos_table eps_d (Cl6_d_Q2 RD) (- (pi_d * pi_d / 8)) (pi_d * pi_d / 8).
Proof. 
  split.
  - apply (pos_of _ (Cl6_d_Q NumLit)); [reflexivity|discriminate|]. intros y Hy.
    assert (pi_d / 2 * (pi_d / 2) <= 987 / 400) by (unfold pi_d; lra).
    destruct (chk0_ok _ _ _ _ _ _ _ _ c6dN y ltac:(lra)) as [A _]. exact A.
  - apply (pos_of _ (Cl6_d_Q2 NumLit)); [reflexivity|discriminate|]. intros y Hy. change pi_d with Pd in Hy. rewrite P28d in Hy.
    assert (0 < - (IZR ud / IZR ed) <= 987 / 800) by (rewrite <- P28d; unfold Pd; lra).
    destruct (chkS_ok _ _ _ _ _ _ _ _ _ _ c6dF (y - IZR ud / IZR ed) ltac:(lra)) as [A _].
    replace (y - IZR ud / IZR ed + IZR ud / IZR ed) with y in A by ring. exact A.
Qed.
Theorem C40_Cl2_long_double : pos_table eps_l (Cl2_l_Q RL) (- (pi_l * pi_l / 8)) (pi_l * pi_l / 8) /\
  pos_table eps_l (Cl2_l_Q2 RL) (- (pi_l * pi_l / 8)) (pi_l * pi_l / 8).
Proof. 
  split.
  - apply (pos_of _ (Cl2_l_Q NumLit)); [reflexivity|discriminate|]. intros y Hy. change pi_l with Pl in Hy. rewrite P28l in Hy.
    assert (0 < - (IZR ul / IZR el) <= 987 / 800) by (rewrite <- P28l; unfold Pl; lra).
    destruct (chkS_ok _ _ _ _ _ _ _ _ _ _ c2lN (y - IZR ul / IZR el) ltac:(lra)) as [A _].
    replace (y - IZR ul / IZR el + IZR ul / IZR el) with y in A by ring. exact A.
  - apply (pos_of _ (Cl2_l_Q2 NumLit)); [reflexivity|discriminate|]. intros y Hy. change pi_l with Pl in Hy. rewrite P28l in Hy.
    assert (0 < - (IZR ul / IZR el) <= 987 / 800) by (rewrite <- P28l; unfold Pl; lra).
    destruct (chkS_ok _ _ _ _ _ _ _ _ _ _ c2lF (y - IZR ul / IZR el) ltac:(lra)) as [A _].
    replace (y - IZR ul / IZR el + IZR ul / IZR el) with y in A by ring. exact A.
Qed.
Theorem C40_Cl3_long_double : pos_table eps_l (Cl3_l_Q RL) (- (pi_l * pi_l / 8)) (pi_l * pi_l / 8) /\
  pos_table eps_l (Cl3_l_Q2 RL) (- (pi_l * pi_l / 8)) (pi_l * pi_l / 8).
Proof. 
  split.
  - apply (pos_of _ (Cl3_l_Q NumLit)); [reflexivity|discriminate|]. intros y Hy. change pi_l with Pl in Hy. rewrite P28l in Hy.
    assert (0 < - (IZR ul / IZR el) <= 987 / 800) by (rewrite <- P28l; unfold Pl; lra).
    destruct (chkS_ok _ _ _ _ _ _ _ _ _ _ c3lN (y - IZR ul / IZR el) ltac:(lra)) as [A _].
    replace (y - IZR ul / IZR el + IZR ul / IZR el) with y in A by ring. exact A.
  - apply (pos_of _ (Cl3_l_Q2 NumLit)); [reflexivity|discriminate|]. intros y Hy. change pi_l with Pl in Hy. rewrite P28l in Hy.
    assert (0 < - (IZR ul / IZR el) <= 987 / 800) by (rewrite <- P28l; unfold Pl; lra).
    destruct (chkS_ok _ _ _ _ _ _ _ _ _ _ c3lF (y - IZR ul / IZR el) ltac:(lra)) as [A _].
    replace (y - IZR ul / IZR el + IZR ul / IZR el) with y in A by ring. exact A.
Qed.
Theorem C40_Cl4_long_double : pos_table eps_l (Cl4_l_Q RL) (- (pi_l * pi_l / 8)) (pi_l * pi_l / 8) /\
  pos_table eps_l (Cl4_l_Q2 RL) (- (pi_l * pi_l / 8)) (pi_l * pi_l / 8).
Proof. 
  split.
  - apply (pos_of _ (Cl4_l_Q NumLit)); [reflexivity|discriminate|]. intros y Hy. change pi_l with Pl in Hy. rewrite P28l in Hy.
    assert (0 < - (IZR ul / IZR el) <= 987 / 800) by (rewrite <- P28l; unfold Pl; lra).
    destruct (chkS_ok _ _ _ _ _ _ _ _ _ _ c4lN (y - IZR ul / IZR el) ltac:(lra)) as [A _].
    replace (y - IZR ul / IZR el + IZR ul / IZR el) with y in A by ring. exact A.
  - apply (pos_of _ (Cl4_l_Q2 NumLit)); [reflexivity|discriminate|]. intros y Hy. change pi_l with Pl in Hy. rewrite P28l in Hy.
    assert (0 < - (IZR ul / IZR el) <= 987 / 800) by (rewrite <- P28l; unfold Pl; lra).
    destruct (chkS_ok _ _ _ _ _ _ _ _ _ _ c4lF (y - IZR ul / IZR el) ltac:(lra)) as [A _].
    replace (y - IZR ul / IZR el + IZR ul / IZR el) with y in A by ring. exact A.
Qed.
Theorem C40_Cl5_long_double : pos_table eps_l (Cl5_l_Q RL) 0 (pi_l / 2 * (pi_l / 2)) /\
  pos_table eps_l (Cl5_l_Q2 RL) (- (pi_l * pi_l / 8)) (pi_l * pi_l / 8).
Proof. 
  split.
  - apply (pos_of _ (Cl5_l_Q NumLit)); [reflexivity|discriminate|]. intros y Hy.
    assert (pi_l / 2 * (pi_l / 2) <= 987 / 400) by (unfold pi_l; lra).
    destruct (chk0_ok _ _ _ _ _ _ _ _ c5lN y ltac:(lra)) as [A _]. exact A.
  - apply (pos_of _ (Cl5_l_Q2 NumLit)); [reflexivity|discriminate|]. intros y Hy. change pi_l with Pl in Hy. rewrite P28l in Hy.
    assert (0 < - (IZR ul / IZR el) <= 987 / 800) by (rewrite <- P28l; unfold Pl; lra).
    destruct (chkS_ok _ _ _ _ _ _ _ _ _ _ c5lF (y - IZR ul / IZR el) ltac:(lra)) as [A _].
    replace (y - IZR ul / IZR el + IZR ul / IZR el) with y in A by ring. exact A.
Qed.
Theorem C40_Cl6_long_double : pos_table eps_l (Cl6_l_Q RL) 0 (pi_l / 2 * (pi_l / 2)) /\
  pos_table eps_l (Cl6_l_Q2 RL) (- (pi_l * pi_l / 8)) (pi_l * pi_l / 8).
Proof. 
  split.
  - apply (pos_of _ (Cl6_l_Q NumLit)); [reflexivity|discriminate|]. intros y Hy.
    assert (pi_l / 2 * (pi_l / 2) <= 987 / 400) by (unfold pi_l; lra).
    destruct (chk0_ok _ _ _ _ _ _ _ _ c6lN y ltac:(lra)) as [A _]. exact A.
  - apply (pos_of _ (Cl6_l_Q2 NumLit)); [reflexivity|discriminate|]. intros y Hy. change pi_l with Pl in Hy. rewrite P28l in Hy.
    assert (0 < - (IZR ul / IZR el) <= 987 / 800) by (rewrite <- P28l; unfold Pl; lra).
    destruct (chkS_ok _ _ _ _ _ _ _ _ _ _ c6lF (y - IZR ul / IZR el) ltac:(lra)) as [A _].
    replace (y - IZR ul / IZR el + IZR ul / IZR el) with y in A by ring. exact A.
Qed.

(** ** C39  no jumps

    [jump_le f b d]: the oscillation of f at b is at most d, i.e. the values
    of f on both sides of b (and at b) differ by at most d in the limit. *)
Definition jump_le (f : R -> option R) (b d : R) : Prop :=
  forall e, 0 < e -> exists h, 0 < h /\ forall x y, Rabs (x - b) < h -> Rabs (y - b) < h ->
    exists u v, f x = Some u /\ f y = Some v /\ Rabs (u - v) <= d + e.
Lemma cont_ball (g : R -> R) b e : continuous g b -> 0 < e -> exists h, 0 < h /\ forall x, Rabs (x - b) < h -> Rabs (g x - g b) < e.
Proof.
  intros C He. destruct (C (fun y => Rabs (y - g b) < e)) as [h H].
  - exists (mkposreal e He). intros y Hy. exact Hy.
  - exists h. split; [apply cond_pos|]. intros x Hx. apply H. exact Hx.
Qed.
Lemma jump_of f g E b r : 0 < r -> continuous g b -> continuous E b ->
  (forall x, Rabs (x - b) < r -> exists v, f x = Some v /\ Rabs (v - g x) <= E x) -> jump_le f b (2 * E b).
Proof.
  intros Hr Cg CE H e He. destruct (cont_ball g b (e / 4) Cg ltac:(lra)) as (h1 & H1 & G). destruct (cont_ball E b (e / 4) CE ltac:(lra)) as (h2 & H2 & K).
  exists (Rmin r (Rmin h1 h2)). split; [repeat apply Rmin_glb_lt; assumption|]. intros x y Hx Hy.
  assert (X : Rabs (x - b) < r /\ Rabs (x - b) < h1 /\ Rabs (x - b) < h2).
  { pose proof (Rmin_l r (Rmin h1 h2)). pose proof (Rmin_r r (Rmin h1 h2)). pose proof (Rmin_l h1 h2). pose proof (Rmin_r h1 h2). repeat split; lra. }
  assert (Y : Rabs (y - b) < r /\ Rabs (y - b) < h1 /\ Rabs (y - b) < h2).
  { pose proof (Rmin_l r (Rmin h1 h2)). pose proof (Rmin_r r (Rmin h1 h2)). pose proof (Rmin_l h1 h2). pose proof (Rmin_r h1 h2). repeat split; lra. }
  destruct X as (X0 & X1 & X2), Y as (Y0 & Y1 & Y2).
  destruct (H x X0) as (u & U & AU). destruct (H y Y0) as (v & V & AV). exists u, v. split; [exact U|]. split; [exact V|].
  pose proof (G x X1) as A1. pose proof (G y Y1) as A2. pose proof (K x X2) as A3. pose proof (K y Y2) as A4.
  apply Rabs_lt_between in A1, A2, A3, A4. apply Rabs_le_between in AU, AV. apply Rabs_le. lra.
Qed.
Lemma Rmin1_lip y b : Rabs (Rmin 1 (Rabs y) - Rmin 1 (Rabs b)) <= Rabs (y - b).
Proof.
  pose proof (Rabs_triang_inv y b). pose proof (Rabs_triang_inv b y) as T2. rewrite (Rabs_minus_sym b y) in T2. pose proof (Rabs_pos (y-b)).
  unfold Rmin. destruct (Rle_dec 1 (Rabs y)), (Rle_dec 1 (Rabs b)); apply Rabs_le; lra.
Qed.
Lemma Rmax1_lip y b : Rabs (Rmax 1 (Rabs y) - Rmax 1 (Rabs b)) <= Rabs (y - b).
Proof.
  pose proof (Rabs_triang_inv y b). pose proof (Rabs_triang_inv b y) as T2. rewrite (Rabs_minus_sym b y) in T2. pose proof (Rabs_pos (y-b)).
  unfold Rmax. destruct (Rle_dec 1 (Rabs y)), (Rle_dec 1 (Rabs b)); apply Rabs_le; lra.
Qed.
Lemma lip_cont (f : R -> R) b : (forall y, Rabs (f y - f b) <= Rabs (y - b)) -> continuous f b.
Proof.
  intros H P [e He]. exists e. intros y Hy. apply He.
  change (Rabs (f y - f b) < e). change (Rabs (y - b) < e) in Hy. eapply Rle_lt_trans; [apply H|exact Hy].
Qed.
Lemma continuous_Rmin1 b : continuous (fun x => Rmin 1 (Rabs x)) b.
Proof. apply lip_cont. intros y. apply Rmin1_lip. Qed.
Lemma continuous_lnmax b : continuous (fun x => ln (Rmax 1 (Rabs x))) b.
Proof.
  apply (continuous_comp (fun x => Rmax 1 (Rabs x)) ln).
  - apply lip_cont. intros y. apply Rmax1_lip.
  - apply (ex_derive_continuous ln). exists (/ Rmax 1 (Rabs b)). apply is_derive_ln. pose proof (Rmax_l 1 (Rabs b)). lra.
Qed.
Lemma ReLi_cont n b : (2 <= n)%nat -> continuous (ReLi n) b.
Proof. intros H. apply (ReLi_comp_continuous n (fun x => x)); [exact H|apply continuous_id]. Qed.

(** the four real dilogarithms, the trilogarithm and Li4 do not jump at any point *)
Theorem C39_Li2_float : forall b : R, jump_le (fun x => Li2_f RF (Some x)) b (2 * (31 / 10^8 * Rmin 1 (Rabs b))).
Proof.
  intros b. apply (jump_of _ (ReLi 2) (fun b => 31 / 10^8 * Rmin 1 (Rabs b)) b 1); [lra|apply ReLi_cont; lia| |].
  - apply (continuous_scal_r (31 / 10^8) (fun x => Rmin 1 (Rabs x))). apply continuous_Rmin1.
  - intros x _. apply Li2_f_accuracy.
Qed.
Theorem C39_Li2_double : forall b : R, jump_le (fun x => Li2_d RD (Some x)) b (2 * (2 / 10^16 * Rmin 1 (Rabs b))).
Proof.
  intros b. apply (jump_of _ (ReLi 2) (fun b => 2 / 10^16 * Rmin 1 (Rabs b)) b 1); [lra|apply ReLi_cont; lia| |].
  - apply (continuous_scal_r (2 / 10^16) (fun x => Rmin 1 (Rabs x))). apply continuous_Rmin1.
  - intros x _. apply Li2_d_accuracy.
Qed.
Theorem C39_Li2_long_double : forall b : R, jump_le (fun x => Li2_l RL (Some x)) b (2 * (23 / 10^21 * Rmin 1 (Rabs b))).
Proof.
  intros b. apply (jump_of _ (ReLi 2) (fun b => 23 / 10^21 * Rmin 1 (Rabs b)) b 1); [lra|apply ReLi_cont; lia| |].
  - apply (continuous_scal_r (23 / 10^21) (fun x => Rmin 1 (Rabs x))). apply continuous_Rmin1.
  - intros x _. apply Li2_l_accuracy.
Qed.
Theorem C39_Li2_quad : forall b : R, jump_le (fun x => Li2_q RQ (Some x)) b (2 * (15 / 10^36 * Rmin 1 (Rabs b))).
Proof.
  intros b. apply (jump_of _ (ReLi 2) (fun b => 15 / 10^36 * Rmin 1 (Rabs b)) b 1); [lra|apply ReLi_cont; lia| |].
  - apply (continuous_scal_r (15 / 10^36) (fun x => Rmin 1 (Rabs x))). apply continuous_Rmin1.
  - intros x _. apply Li2_q_accuracy.
Qed.
Theorem C39_Li3 : forall b : R, jump_le (fun x => Li3_d RD (Some x)) b (2 * (3 / 10^16 * Rmin 1 (Rabs b) + 1 / 10^16 * ln (Rmax 1 (Rabs b)))).
Proof.
  intros b. apply (jump_of _ (ReLi 3) (fun b => 3 / 10^16 * Rmin 1 (Rabs b) + 1 / 10^16 * ln (Rmax 1 (Rabs b))) b 1); [lra|apply ReLi_cont; lia| |].
  - apply (continuous_plus (fun b => 3 / 10^16 * Rmin 1 (Rabs b)) (fun b => 1 / 10^16 * ln (Rmax 1 (Rabs b)))).
    + apply (continuous_scal_r (3 / 10^16) (fun x => Rmin 1 (Rabs x))). apply continuous_Rmin1.
    + apply (continuous_scal_r (1 / 10^16) (fun x => ln (Rmax 1 (Rabs x)))). apply continuous_lnmax.
  - intros x _. apply Li3_d_accuracy.
Qed.
Theorem C39_Li4 : forall b : R, jump_le (fun x => Li4_d RD (Some x)) b (2 * (2 / 10^16 * Rmin 1 (Rabs b) + 4 / 10^17 * (ln (Rmax 1 (Rabs b)))^2)).
Proof.
  intros b. apply (jump_of _ (ReLi 4) (fun b => 2 / 10^16 * Rmin 1 (Rabs b) + 4 / 10^17 * (ln (Rmax 1 (Rabs b)))^2) b 1); [lra|apply ReLi_cont; lia| |].
  - apply (continuous_plus (fun b => 2 / 10^16 * Rmin 1 (Rabs b)) (fun b => 4 / 10^17 * (ln (Rmax 1 (Rabs b)))^2)).
    + apply (continuous_scal_r (2 / 10^16) (fun x => Rmin 1 (Rabs x))). apply continuous_Rmin1.
    + apply (continuous_scal_r (4 / 10^17) (fun x => (ln (Rmax 1 (Rabs x)))^2)).
      apply (continuous_comp (fun x => ln (Rmax 1 (Rabs x))) (fun y => y ^ 2)); [apply continuous_lnmax|].
      apply (ex_derive_continuous (fun y => y ^ 2)). auto_derive. exact I.
  - intros x _. apply Li4_d_accuracy.
Qed.

(** the Clausen functions: every angle in (-4,4), which contains the branch
    boundaries 0, +-pi/2 and +-pi *)
Lemma wide_no_gap x : Rabs x <= 6 -> ~ in_gap Pd Sd x.
Proof.
  intros H (k & K & A & B). assert (0 <= IZR k) by (apply (IZR_le 0); exact K). pose proof HPd.
  assert (0 <= IZR k * (2 * Pd)) by (apply Rmult_le_pos; lra). unfold Sd in A. lra.
Qed.
Lemma Clspec_Lip_abs n x x' : (2 <= n)%nat -> 3 <= Rabs x <= 4 -> Rabs (x' - x) <= 1 / 2 -> Rabs (Clspec n x' - Clspec n x) <= 2 * Rabs (x' - x).
Proof.
  intros Hn H D. apply Rabs_le_between in D. destruct (Rcase_abs x) as [N|P].
  - rewrite (Rabs_left x) in H by lra.
    replace (Clspec n x' - Clspec n x) with (par n * (Clspec n (- x') - Clspec n (- x))).
    + rewrite Rabs_mult. replace (Rabs (par n)) with 1.
      * rewrite Rmult_1_l. eapply Rle_trans; [apply Clspec_Lip'; [exact Hn|lra|lra]|]. right. f_equal. rewrite <- Rabs_Ropp. f_equal. ring.
      * unfold par. destruct (Nat.even n); unfold Rabs; destruct Rcase_abs; lra.
    + rewrite !Clspec_opp. unfold par. destruct (Nat.even n); ring.
  - rewrite (Rabs_pos_eq x) in H by lra. apply Clspec_Lip'; [exact Hn|lra|lra].
Qed.
Lemma Clspec_cont n b : (2 <= n)%nat -> continuous (Clspec n) b.
Proof. intros H. unfold Clspec. destruct (Nat.even n); [apply sinser_continuous|apply cosser_continuous]; exact H. Qed.
Lemma cl_jump f n e a c b P : (2 <= n)%nat -> Rabs b < 4 -> 3 < P -> 0 <= a <= 1 / 100 -> 0 <= c <= 1 / 100 ->
  (forall x, Rabs x < 4 -> exists v x', f x = Some v /\ Rabs (v - Clspec n x') <= e /\ Rabs (x' - x) <= a * Rabs x + c /\ (Rabs x <= P -> x' = x)) ->
  jump_le f b (2 * (e + 2 * (a * 4 + c))).
Proof.
  intros Hn Hb HP Ha Hc H. apply (jump_of f (Clspec n) (fun _ => e + 2 * (a * 4 + c)) b (4 - Rabs b)); [lra|apply Clspec_cont; exact Hn|apply continuous_const|].
  intros x Hx. assert (X : Rabs x < 4) by (pose proof (Rabs_triang_inv x b); lra).
  destruct (H x X) as (v & x' & E & V & D & S). exists v. split; [exact E|].
  assert (AX : a * Rabs x <= a * 4) by (apply Rmult_le_compat_l; lra).
  destruct (Rle_dec (Rabs x) P) as [L|L]; [rewrite (S L) in V; lra|].
  assert (G : Rabs (Clspec n x' - Clspec n x) <= 2 * Rabs (x' - x)) by (apply Clspec_Lip_abs; [exact Hn|lra|lra]).
  replace (v - Clspec n x) with ((v - Clspec n x') + (Clspec n x' - Clspec n x)) by ring. eapply Rle_trans; [apply Rabs_triang|]. lra.
Qed.
Theorem C39_Cl2_double : forall b : R, Rabs b < 4 -> jump_le (fun x => Cl2_d RD (Some x)) b (7 / 10 ^ 17).
Proof.
  intros b Hb e He. destruct (cl_jump (fun x => Cl2_d RD (Some x)) 2 (3 / 10 ^ 17) (6 / 10 ^ 19) (1 / 10 ^ 19) b Pd ltac:(lia) Hb ltac:(unfold Pd; lra) ltac:(lra) ltac:(lra)
    (fun x Hx => Cl2_d_accuracy eps_d x (wide_no_gap x ltac:(lra))) e He) as (h & H & J).
  exists h. split; [exact H|]. intros x y Hx Hy. destruct (J x y Hx Hy) as (u & v & U & V & D). exists u, v. split; [exact U|]. split; [exact V|]. lra.
Qed.
Theorem C39_Cl3_double : forall b : R, Rabs b < 4 -> jump_le (fun x => Cl3_d RD (Some x)) b (22 / 10 ^ 17).
Proof.
  intros b Hb e He. destruct (cl_jump (fun x => Cl3_d RD (Some x)) 3 (1 / 10 ^ 16) (6 / 10 ^ 19) (1 / 10 ^ 19) b Pd ltac:(lia) Hb ltac:(unfold Pd; lra) ltac:(lra) ltac:(lra)
    (fun x Hx => Cl3_d_accuracy eps_d x (wide_no_gap x ltac:(lra))) e He) as (h & H & J).
  exists h. split; [exact H|]. intros x y Hx Hy. destruct (J x y Hx Hy) as (u & v & U & V & D). exists u, v. split; [exact U|]. split; [exact V|]. lra.
Qed.
Theorem C39_Cl4_double : forall b : R, Rabs b < 4 -> jump_le (fun x => Cl4_d RD (Some x)) b (22 / 10 ^ 17).
Proof.
  intros b Hb e He. destruct (cl_jump (fun x => Cl4_d RD (Some x)) 4 (1 / 10 ^ 16) (6 / 10 ^ 19) (1 / 10 ^ 19) b Pd ltac:(lia) Hb ltac:(unfold Pd; lra) ltac:(lra) ltac:(lra)
    (fun x Hx => Cl4_d_accuracy eps_d x (wide_no_gap x ltac:(lra))) e He) as (h & H & J).
  exists h. split; [exact H|]. intros x y Hx Hy. destruct (J x y Hx Hy) as (u & v & U & V & D). exists u, v. split; [exact U|]. split; [exact V|]. lra.
Qed.
Theorem C39_Cl5_double : forall b : R, Rabs b < 4 -> jump_le (fun x => Cl5_d RD (Some x)) b (16 / 10 ^ 17).
Proof.
  intros b Hb e He. destruct (cl_jump (fun x => Cl5_d RD (Some x)) 5 (7 / 10 ^ 17) (6 / 10 ^ 19) (1 / 10 ^ 19) b Pd ltac:(lia) Hb ltac:(unfold Pd; lra) ltac:(lra) ltac:(lra)
    (fun x Hx => Cl5_d_accuracy eps_d x (wide_no_gap x ltac:(lra))) e He) as (h & H & J).
  exists h. split; [exact H|]. intros x y Hx Hy. destruct (J x y Hx Hy) as (u & v & U & V & D). exists u, v. split; [exact U|]. split; [exact V|]. lra.
Qed.
Theorem C39_Cl6_double : forall b : R, Rabs b < 4 -> jump_le (fun x => Cl6_d RD (Some x)) b (13 / 10 ^ 16).
Proof.
  intros b Hb e He. destruct (cl_jump (fun x => Cl6_d RD (Some x)) 6 (6 / 10 ^ 16) (6 / 10 ^ 19) (1 / 10 ^ 19) b Pd ltac:(lia) Hb ltac:(unfold Pd; lra) ltac:(lra) ltac:(lra)
    (fun x Hx => Cl6_d_accuracy eps_d x (wide_no_gap x ltac:(lra))) e He) as (h & H & J).
  exists h. split; [exact H|]. intros x y Hx Hy. destruct (J x y Hx Hy) as (u & v & U & V & D). exists u, v. split; [exact U|]. split; [exact V|]. lra.
Qed.
Theorem C39_Cl2_long_double : forall b : R, Rabs b < 4 -> jump_le (fun x => Cl2_l RL (Some x)) b (5 / 10 ^ 35).
Proof.
  intros b Hb e He. destruct (cl_jump (fun x => Cl2_l RL (Some x)) 2 (1 / 10 ^ 35) (14 / 10 ^ 37) (1 / 10 ^ 38) b Pl ltac:(lia) Hb ltac:(unfold Pl; lra) ltac:(lra) ltac:(lra)
    (fun x Hx => Cl2_l_accuracy eps_l x) e He) as (h & H & J).
  exists h. split; [exact H|]. intros x y Hx Hy. destruct (J x y Hx Hy) as (u & v & U & V & D). exists u, v. split; [exact U|]. split; [exact V|]. lra.
Qed.
Theorem C39_Cl3_long_double : forall b : R, Rabs b < 4 -> jump_le (fun x => Cl3_l RL (Some x)) b (15 / 10 ^ 26).
Proof.
  intros b Hb e He. destruct (cl_jump (fun x => Cl3_l RL (Some x)) 3 (7 / 10 ^ 26) (14 / 10 ^ 37) (1 / 10 ^ 38) b Pl ltac:(lia) Hb ltac:(unfold Pl; lra) ltac:(lra) ltac:(lra)
    (fun x Hx => Cl3_l_accuracy eps_l x) e He) as (h & H & J).
  exists h. split; [exact H|]. intros x y Hx Hy. destruct (J x y Hx Hy) as (u & v & U & V & D). exists u, v. split; [exact U|]. split; [exact V|]. lra.
Qed.
Theorem C39_Cl4_long_double : forall b : R, Rabs b < 4 -> jump_le (fun x => Cl4_l RL (Some x)) b (3 / 10 ^ 25).
Proof.
  intros b Hb e He. destruct (cl_jump (fun x => Cl4_l RL (Some x)) 4 (1 / 10 ^ 25) (14 / 10 ^ 37) (1 / 10 ^ 38) b Pl ltac:(lia) Hb ltac:(unfold Pl; lra) ltac:(lra) ltac:(lra)
    (fun x Hx => Cl4_l_accuracy eps_l x) e He) as (h & H & J).
  exists h. split; [exact H|]. intros x y Hx Hy. destruct (J x y Hx Hy) as (u & v & U & V & D). exists u, v. split; [exact U|]. split; [exact V|]. lra.
Qed.
Theorem C39_Cl5_long_double : forall b : R, Rabs b < 4 -> jump_le (fun x => Cl5_l RL (Some x)) b (15 / 10 ^ 26).
Proof.
  intros b Hb e He. destruct (cl_jump (fun x => Cl5_l RL (Some x)) 5 (7 / 10 ^ 26) (14 / 10 ^ 37) (1 / 10 ^ 38) b Pl ltac:(lia) Hb ltac:(unfold Pl; lra) ltac:(lra) ltac:(lra)
    (fun x Hx => Cl5_l_accuracy eps_l x) e He) as (h & H & J).
  exists h. split; [exact H|]. intros x y Hx Hy. destruct (J x y Hx Hy) as (u & v & U & V & D). exists u, v. split; [exact U|]. split; [exact V|]. lra.
Qed.
Theorem C39_Cl6_long_double : forall b : R, Rabs b < 4 -> jump_le (fun x => Cl6_l RL (Some x)) b (3 / 10 ^ 25).
Proof.
  intros b Hb e He. destruct (cl_jump (fun x => Cl6_l RL (Some x)) 6 (1 / 10 ^ 25) (14 / 10 ^ 37) (1 / 10 ^ 38) b Pl ltac:(lia) Hb ltac:(unfold Pl; lra) ltac:(lra) ltac:(lra)
    (fun x Hx => Cl6_l_accuracy eps_l x) e He) as (h & H & J).
  exists h. split; [exact H|]. intros x y Hx Hy. destruct (J x y Hx Hy) as (u & v & U & V & D). exists u, v. split; [exact U|]. split; [exact V|]. lra.
Qed.

(** ** C38  zeros and extremes *)
Section C38.
Variable L : libm 53 1024.
Definition PI_dbl : f64 := lit (B64 L) 314159265358979324 (-17).
Lemma Cl2_at_pi : Cl2_d (B64 L) PI_dbl = B754_zero false /\ Cl2_d (B64 L) (opp (B64 L) PI_dbl) = B754_zero false.
Proof. split; vm_compute; reflexivity. Qed.
Lemma Cl4_at_pi : Cl4_d (B64 L) PI_dbl = B754_zero false /\ Cl4_d (B64 L) (opp (B64 L) PI_dbl) = B754_zero false.
Proof. split; vm_compute; reflexivity. Qed.
Lemma Cl6_at_pi : Cl6_d (B64 L) PI_dbl = B754_zero false /\ Cl6_d (B64 L) (opp (B64 L) PI_dbl) = B754_zero false.
Proof. split; vm_compute; reflexivity. Qed.
End C38.
