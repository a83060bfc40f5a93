(** * The polylogarithm as a power series, and polynomial reference approximations *)
From Coq Require Import Reals Lra Lia Psatz ZArith List.
From Coquelicot Require Import Coquelicot.
From Verif Require Import Polylog.
Import ListNotations.
Local Open Scope R_scope.

(** ** comparison of derivatives *)
Lemma deriv_nonneg (f f' : R -> R) a b : a <= b ->
  (forall x, a <= x <= b -> continuous f x) -> (forall x, a < x < b -> is_derive f x (f' x)) ->
  (forall x, a < x < b -> 0 <= f' x) -> f a <= f b.
Proof.
  intros H Cf Df B.
  destruct (MVT_gen f a b (fun x => if Rlt_dec a x then if Rlt_dec x b then f' x else 0 else 0)) as (c & Hc & E).
  - intros z Hz. rewrite Rmin_left, Rmax_right in Hz by lra. destruct (Rlt_dec a z), (Rlt_dec z b); try lra. apply Df. exact Hz.
  - intros z Hz. rewrite Rmin_left, Rmax_right in Hz by lra. apply continuity_pt_filterlim. apply Cf. exact Hz.
  - assert (0 <= if Rlt_dec a c then if Rlt_dec c b then f' c else 0 else 0) by (destruct (Rlt_dec a c), (Rlt_dec c b); try lra; apply B; lra). nra.
Qed.
Lemma deriv_cmp (f g f' g' : R -> R) a b : a <= b ->
  (forall x, a <= x <= b -> continuous f x) -> (forall x, a <= x <= b -> continuous g x) ->
  (forall x, a < x < b -> is_derive f x (f' x)) -> (forall x, a < x < b -> is_derive g x (g' x)) ->
  (forall x, a < x < b -> Rabs (f' x) <= g' x) -> Rabs (f b - f a) <= g b - g a.
Proof.
  intros H Cf Cg Df Dg B.
  assert (I1 : g a - f a <= g b - f b).
  { apply (deriv_nonneg (fun x => g x - f x) (fun x => g' x - f' x)); auto.
    - intros x Hx. apply (continuous_minus g f); auto.
    - intros x Hx. apply (is_derive_minus g f); auto.
    - intros x Hx. specialize (B x Hx). apply Rabs_le_between in B. lra. }
  assert (I2 : g a + f a <= g b + f b).
  { apply (deriv_nonneg (fun x => g x + f x) (fun x => g' x + f' x)); auto.
    - intros x Hx. apply (continuous_plus g f); auto.
    - intros x Hx. apply (is_derive_plus g f); auto.
    - intros x Hx. specialize (B x Hx). apply Rabs_le_between in B. lra. }
  apply Rabs_le. lra.
Qed.
(** |f'| <= e between 0 and x, f 0 = 0: |f x| <= e |x| *)
Lemma deriv_bound0 (f f' : R -> R) e x : f 0 = 0 ->
  (forall t, Rmin 0 x <= t <= Rmax 0 x -> continuous f t) ->
  (forall t, Rmin 0 x < t < Rmax 0 x -> is_derive f t (f' t)) ->
  (forall t, Rmin 0 x < t < Rmax 0 x -> Rabs (f' t) <= e) -> Rabs (f x) <= e * Rabs x.
Proof.
  intros Z C D B. 
  assert (CE : forall t, continuous (fun t : R => e * t) t) by (intros t; apply (ex_derive_continuous (fun t : R => e * t)); auto_derive; trivial).
  assert (DE : forall t, is_derive (fun t : R => e * t) t e). { intros t. auto_derive; [trivial|ring]. }
  destruct (Rle_dec 0 x) as [L|L].
  - rewrite Rmin_left, Rmax_right in * by lra.
    pose proof (deriv_cmp f (fun t => e * t) f' (fun _ => e) 0 x L C ltac:(auto) D ltac:(auto) B) as K.
    rewrite Z, Rminus_0_r in K. rewrite (Rabs_pos_eq x) by lra. lra.
  - rewrite Rmin_right, Rmax_left in * by lra.
    pose proof (deriv_cmp f (fun t => e * t) f' (fun _ => e) x 0 ltac:(lra) C ltac:(auto) D ltac:(auto) B) as K.
    rewrite Z, <- Rabs_Ropp in K. replace (- (0 - f x)) with (f x) in K by ring. rewrite (Rabs_left x) by lra. lra.
Qed.

(** ** power series *)
(** coefficient of x^k in Li_n: 1/k^n, 0 for k = 0 *)
Definition Licoef (n k : nat) : R := match k with O => 0 | S _ => / INR k ^ n end.
Lemma Licoef_bound n k : 0 <= Licoef n k <= 1.
Proof.
  destruct k; cbn [Licoef]; [lra|]. assert (1 <= INR (S k)) by (rewrite S_INR; pose proof (pos_INR k); lra).
  assert (1 <= INR (S k) ^ n) by (apply pow_R1_Rle; exact H). split.
  - left. apply Rinv_0_lt_compat. lra.
  - rewrite <- Rinv_1. apply Rinv_le_contravar; lra.
Qed.
Lemma Licoef_radius n x : Rabs x < 1 -> Rbar_lt (Rabs x) (CV_radius (Licoef n)).
Proof.
  intros H. apply Rbar_lt_le_trans with 1; [exact H|].
  apply (CV_radius_bounded (Licoef n)). exists 1. intros k. rewrite pow1, Rmult_1_r.
  pose proof (Licoef_bound n k). rewrite Rabs_pos_eq; lra.
Qed.
Lemma Licoef_derive n k : PS_derive (Licoef (S n)) k = Licoef n (S k).
Proof.
  unfold PS_derive. cbn [Licoef]. change (INR (S k) ^ S n) with (INR (S k) * INR (S k) ^ n). 
  assert (0 < INR (S k)) by (apply lt_0_INR; lia). assert (INR (S k) ^ n <> 0) by (apply pow_nonzero; lra). field. split; [assumption|lra].
Qed.
Lemma PS_decr_Li n x : x <> 0 -> Rabs x < 1 -> PSeries (PS_derive (Licoef (S n))) x = PSeries (Licoef n) x / x.
Proof.
  intros X H. rewrite (PSeries_ext _ (fun k => Licoef n (S k))) by apply Licoef_derive.
  rewrite (PSeries_decr_1 (Licoef n)).
  - change (Licoef n 0) with 0. change (PS_decr_1 (Licoef n)) with (fun k => Licoef n (S k)). rewrite Rplus_0_l. field. exact X.
  - apply CV_radius_inside. apply Licoef_radius. exact H.
Qed.
Lemma Li_series_0 x : Rabs x < 1 -> PSeries (Licoef 0) x = x / (1 - x).
Proof.
  intros H. rewrite PSeries_decr_1 by (apply CV_radius_inside, Licoef_radius, H). cbn [Licoef]. rewrite Rplus_0_l.
  rewrite (PSeries_ext _ (fun _ => 1)) by (intros k; unfold PS_decr_1; cbn [Licoef pow]; field).
  unfold PSeries. rewrite (Series_ext _ (fun k => x ^ k)) by (intros k; ring).
  rewrite Series_geom by exact H. reflexivity.
Qed.
Lemma PSeries_Li_0 n : PSeries (Licoef n) 0 = 0.
Proof. rewrite PSeries_0. reflexivity. Qed.

(** inside the unit disc every ReLi is its power series *)
Theorem ReLi_PSeries n x : Rabs x < 1 -> ReLi n x = PSeries (Licoef n) x.
Proof.
  revert x. induction n as [|n IH]; intros x H; [symmetry; apply Li_series_0; exact H|].
  set (f := fun x => ReLi (S n) x - PSeries (Licoef (S n)) x).
  enough (E : f 0 = f x).
  { unfold f in E. rewrite PSeries_Li_0 in E. 
    assert (Z : ReLi (S n) 0 = 0). { destruct n; [cbn; rewrite Rminus_0_r, Rabs_R1, ln_1; ring|]. apply (ReLi_props (S (S n))). lia. }
    rewrite Z in E. lra. }
  apply Rabs_def2 in H.
  assert (PD : forall t, Rabs t < 1 -> is_derive (PSeries (Licoef (S n))) t (PSeries (PS_derive (Licoef (S n))) t)).
  { intros t Ht. apply is_derive_PSeries. apply Licoef_radius. exact Ht. }
  assert (BT : forall t, Rmin 0 x <= t <= Rmax 0 x -> Rabs t < 1).
  { intros t. unfold Rmin, Rmax. destruct (Rle_dec 0 x); intros; apply Rabs_def1; lra. }
  apply const_on_closed'.
  - intros t Ht. apply (continuous_minus (ReLi (S n)) (PSeries (Licoef (S n)))).
    + destruct n as [|n]; [|apply (ReLi_props (S (S n))); lia]. 
      apply (ex_derive_continuous (ReLi 1)). pose proof (BT t Ht) as B. apply Rabs_def2 in B. cbn [ReLi].
      exists (- (-1 * / (1 - t))). apply (is_derive_opp (fun t => ln (Rabs (1 - t)))).
      apply (is_derive_comp (fun u => ln (Rabs u)) (fun t => 1 - t)); [apply is_derive_lnabs; lra|]. auto_derive; [trivial|ring].
    + apply (ex_derive_continuous (PSeries (Licoef (S n)))). eexists. apply PD. apply BT. exact Ht.
  - intros t Ht. assert (T0 : t <> 0) by (revert Ht; unfold Rmin, Rmax; destruct (Rle_dec 0 x); lra).
    assert (T1 : Rabs t < 1) by (apply BT; lra).
    replace 0 with (ReLi n t / t - PSeries (PS_derive (Licoef (S n))) t).
    + apply (is_derive_minus (ReLi (S n)) (PSeries (Licoef (S n)))); [|apply PD; exact T1].
      pose proof T1 as T2. apply Rabs_def2 in T2.
      destruct n as [|n]; [|apply ReLi_derive_n0; [lia|exact T0|left; lra]].
      cbn [ReLi]. replace (t / (1 - t) / t) with (- (-1 * / (1 - t))) by (field; lra).
      apply (is_derive_opp (fun t => ln (Rabs (1 - t)))).
      apply (is_derive_comp (fun u => ln (Rabs u)) (fun t => 1 - t)); [apply is_derive_lnabs; lra|]. auto_derive; [trivial|ring].
    + rewrite PS_decr_Li by assumption. rewrite IH by assumption. ring.
Qed.

Lemma Series_nonneg a : (forall k, 0 <= a k) -> ex_series a -> 0 <= Series a.
Proof.
  intros H E. replace 0 with (Series (fun k => 0 * a k)) by (rewrite Series_scal_l; ring).
  apply Series_le; [|exact E]. intros k. specialize (H k). lra.
Qed.
(** partial sums *)
Definition Lipart (n K : nat) (x : R) : R := sum_f_R0 (fun k => Licoef n k * x ^ k) K.
Lemma Lipart_le n K x : 0 <= x < 1 -> Lipart n K x <= ReLi n x.
Proof.
  intros H. rewrite ReLi_PSeries by (rewrite Rabs_pos_eq; lra). unfold Lipart, PSeries.
  assert (EX : ex_series (fun k => Licoef n k * x ^ k)).
  { pose proof (CV_radius_inside (Licoef n) x (Licoef_radius n x ltac:(rewrite Rabs_pos_eq; lra))) as K1.
    eapply ex_series_ext; [|exact K1]. intros k. cbn. unfold scal; cbn. unfold mult; cbn. rewrite pow_n_pow. ring. }
  rewrite (Series_incr_n _ (S K)); [|lia|exact EX]. cbn [pred].
  enough (0 <= Series (fun k => Licoef n (S K + k) * x ^ (S K + k))) by lra.
  apply Series_nonneg.
  - intros k. apply Rmult_le_pos; [apply Licoef_bound|apply pow_le; lra].
  - apply (ex_series_incr_n _ (S K)) in EX. exact EX.
Qed.
Lemma Lipart_continuous n K x : continuous (Lipart n K) x.
Proof.
  unfold Lipart. induction K as [|K IH]; cbn [sum_f_R0].
  - apply (ex_derive_continuous (fun x => Licoef n 0 * x ^ 0)). auto_derive. trivial.
  - apply (continuous_plus (fun x => sum_f_R0 (fun k => Licoef n k * x ^ k) K) (fun x => Licoef n (S K) * x ^ (S K))); [exact IH|].
    apply (ex_derive_continuous (fun x => Licoef n (S K) * x ^ (S K))). auto_derive. trivial.
Qed.
(** limits from the left *)
Lemma left_limit_le (f g : R -> R) a b : a < b -> continuous f b -> continuous g b ->
  (forall x, a <= x < b -> f x <= g x) -> f b <= g b.
Proof.
  intros H Cf Cg L. apply Rnot_lt_le. intros N.
  set (e := (f b - g b) / 2). assert (He : 0 < e) by (unfold e; lra).
  assert (LF : locally (f b) (fun y => Rabs (y - f b) < e)) by (exists (mkposreal _ He); intros y Hy; exact Hy).
  assert (LG : locally (g b) (fun y => Rabs (y - g b) < e)) by (exists (mkposreal _ He); intros y Hy; exact Hy).
  destruct (Cf _ LF) as [d1 D1]. destruct (Cg _ LG) as [d2 D2].
  set (x := Rmax a (b - Rmin d1 d2 / 2)).
  assert (0 < Rmin d1 d2) by (apply Rmin_glb_lt; [apply d1|apply d2]).
  assert (X : a <= x < b) by (unfold x; split; [apply Rmax_l|apply Rmax_lub_lt; lra]).
  assert (XB : Rabs (x - b) < Rmin d1 d2).
  { rewrite Rabs_left by lra. assert (b - Rmin d1 d2 / 2 <= x) by apply Rmax_r. lra. }
  assert (B1 : ball b d1 x). { unfold ball; cbn. unfold AbsRing_ball, abs, minus, plus, opp; cbn. pose proof (Rmin_l d1 d2). unfold Rminus in XB. lra. }
  assert (B2 : ball b d2 x). { unfold ball; cbn. unfold AbsRing_ball, abs, minus, plus, opp; cbn. pose proof (Rmin_r d1 d2). unfold Rminus in XB. lra. }
  specialize (D1 x B1). specialize (D2 x B2). specialize (L x X). apply Rabs_def2 in D1. apply Rabs_def2 in D2. unfold e in *. lra.
Qed.

Definition zterm (n k : nat) : R := / INR (S k) ^ n.
Lemma zterm_pos n k : 0 < zterm n k.
Proof. apply Rinv_0_lt_compat, pow_lt. apply lt_0_INR. lia. Qed.
Lemma Lipart_1 n K : Lipart n (S K) 1 = sum_f_R0 (zterm n) K.
Proof.
  unfold Lipart. induction K as [|K IH].
  - cbn [sum_f_R0 Licoef]. unfold zterm. change (INR 1) with 1. rewrite !pow1. ring.
  - rewrite tech5, IH. rewrite tech5. f_equal. rewrite pow1, Rmult_1_r. reflexivity.
Qed.

(** the value at 1 is zeta(n) *)
Theorem ReLi_at_1 n : (2 <= n)%nat -> is_series (zterm n) (ReLi n 1).
Proof.
  intros Hn. destruct (ReLi_props n Hn) as (_ & C & _).
  assert (UB : forall K, sum_f_R0 (zterm n) K <= ReLi n 1).
  { intros K. rewrite <- Lipart_1. apply (left_limit_le (Lipart n (S K)) (ReLi n) 0 1); [lra|apply Lipart_continuous|apply C|].
    intros x Hx. apply Lipart_le. exact Hx. }
  assert (EX : ex_series (zterm n)).
  { assert (G : Un_growing (sum_f_R0 (zterm n))). { intros k. cbn [sum_f_R0]. pose proof (zterm_pos n (S k)). lra. }
    destruct (growing_cv _ G) as [l Hl]. { exists (ReLi n 1). intros y [k ->]. apply UB. }
    exists l. apply is_series_Reals. exact Hl. }
  replace (ReLi n 1) with (Series (zterm n)); [apply Series_correct; exact EX|].
  apply Rle_antisym.
  - assert (L : is_lim_seq (sum_n (zterm n)) (Series (zterm n))) by (apply (Series_correct _ EX)).
    assert (K : is_lim_seq (fun _ => ReLi n 1) (ReLi n 1)) by apply is_lim_seq_const.
    assert (Q := is_lim_seq_le (sum_n (zterm n)) (fun _ => ReLi n 1) _ _ (fun k => ltac:(rewrite sum_n_Reals; apply UB)) L K). exact Q.
  - apply (left_limit_le (ReLi n) (fun _ => Series (zterm n)) 0 1); [lra|apply C|apply continuous_const|].
    intros x Hx. rewrite ReLi_PSeries by (rewrite Rabs_pos_eq; lra). unfold PSeries.
    rewrite (Series_incr_1 (fun k => Licoef n k * x ^ k)).
    + change (Licoef n 0) with 0. rewrite Rmult_0_l, Rplus_0_l. apply Series_le; [|exact EX].
      intros k. assert (0 <= x ^ S k <= 1). { split; [apply pow_le; lra|]. rewrite <- (pow1 (S k)). apply pow_incr. lra. }
      change (Licoef n (S k)) with (zterm n k). pose proof (zterm_pos n k). set (w := x ^ S k) in *. clearbody w. set (q := zterm n k) in *. clearbody q. split; nra.
    + pose proof (CV_radius_inside (Licoef n) x (Licoef_radius n x ltac:(rewrite Rabs_pos_eq; lra))) as K1.
      eapply ex_series_ext; [|exact K1]. intros k. cbn. unfold scal; cbn. unfold mult; cbn. rewrite pow_n_pow. ring.
Qed.

(** ** polynomial reference approximations
    [hornerZ l x] = sum (a_i/b_i) x^i; [wl n D k zs] the list (z_i, D*(k+i)^n) *)
Fixpoint hornerZ (l : list (Z * Z)) (x : R) : R :=
  match l with [] => 0 | (a, b) :: l' => IZR a / IZR b + x * hornerZ l' x end.
Fixpoint wl (n : Z) (D k : Z) (zs : list Z) : list (Z * Z) :=
  match zs with [] => [] | z :: zs' => (z, (D * k ^ n)%Z) :: wl n D (k + 1) zs' end.

(** x^k * hornerZ (wl (n+1) D k zs) x has derivative x^(k-1) * hornerZ (wl n D k zs) x *)
Lemma wl_derive n D zs : (0 <= n)%Z -> (0 < D)%Z -> forall k x,
  is_derive (fun x => x ^ S k * hornerZ (wl (n + 1) D (Z.of_nat (S k)) zs) x) x (x ^ k * hornerZ (wl n D (Z.of_nat (S k)) zs) x).
Proof.
  intros Hn HD. induction zs as [|z zs IH]; intros k x.
  - cbn [wl hornerZ]. apply (is_derive_ext (fun _ => 0)); [intros; rewrite Rmult_0_r; reflexivity|]. rewrite Rmult_0_r. apply (is_derive_const (V := R_NormedModule)).
  - cbn [wl hornerZ].
    replace (Z.of_nat (S k) + 1)%Z with (Z.of_nat (S (S k))) by lia.
    set (c := IZR z / IZR (D * Z.of_nat (S k) ^ (n + 1))).
    apply (is_derive_ext (fun x => c * x ^ S k + x ^ S (S k) * hornerZ (wl (n + 1) D (Z.of_nat (S (S k))) zs) x)).
    { intros t. cbn [pow]. change (c * (t * t ^ k) + t * (t * t ^ k) * hornerZ (wl (n + 1) D (Z.of_nat (S (S k))) zs) t = t * t ^ k * (c + t * hornerZ (wl (n + 1) D (Z.of_nat (S (S k))) zs) t)). ring. }
    replace (x ^ k * (IZR z / IZR (D * Z.of_nat (S k) ^ n) + x * hornerZ (wl n D (Z.of_nat (S (S k))) zs) x))
      with (c * (INR (S k) * x ^ k) + x ^ S k * hornerZ (wl n D (Z.of_nat (S (S k))) zs) x).
    + apply (is_derive_plus (fun x => c * x ^ S k)).
      * apply (is_derive_scal (fun x => x ^ S k) x c). replace (INR (S k) * x ^ k) with (INR (S k) * 1 * x ^ pred (S k)) by (cbn [pred]; ring). apply (is_derive_pow (fun t => t)). apply is_derive_idR.
      * apply IH.
    + rewrite Rmult_plus_distr_l. cbn [pow]. f_equal; [|ring].
      unfold c. rewrite Z.pow_add_r, Z.pow_1_r by lia. rewrite !mult_IZR, <- INR_IZR_INZ.
      assert (IZR D <> 0) by (apply IZR_neq; lia). assert (IZR (Z.of_nat (S k) ^ n) <> 0) by (apply IZR_neq; apply Z.pow_nonzero; lia).
      assert (INR (S k) <> 0) by (apply not_0_INR; lia). field. auto.
Qed.

(** [zs]/[D] approximates 1/(1-x) on [a,b]: then the weighted sums approximate every ReLi n, relative to x *)
Theorem ref_correct zs D e a b : (0 < D)%Z -> a <= 0 <= b -> b < 1 ->
  (forall x, a <= x <= b -> Rabs (hornerZ (wl 0 D 1 zs) x - / (1 - x)) <= e) ->
  forall n x, (1 <= n)%nat -> a <= x <= b -> Rabs (x * hornerZ (wl (Z.of_nat n) D 1 zs) x - ReLi n x) <= e * Rabs x.
Proof.
  intros HD Hab Hb H0 n. destruct n as [|n]; [intros x Hn; inversion Hn|].
  assert (DR : forall m x, is_derive (fun x => x * hornerZ (wl (Z.of_nat (S m)) D 1 zs) x) x (hornerZ (wl (Z.of_nat m) D 1 zs) x)).
  { intros m x. pose proof (wl_derive (Z.of_nat m) D zs ltac:(lia) HD 0 x) as K. change (Z.of_nat 1) with 1%Z in K.
    replace (Z.of_nat m + 1)%Z with (Z.of_nat (S m)) in K by lia. cbn [pow] in K. rewrite Rmult_1_l in K.
    eapply is_derive_ext; [|exact K]. intros t. cbn. ring. }
  induction n as [|n IH]; intros x _ Hx.
  - apply (deriv_bound0 (fun x => x * hornerZ (wl (Z.of_nat 1) D 1 zs) x - ReLi 1 x) (fun x => hornerZ (wl 0 D 1 zs) x - / (1 - x))).
    + cbn [ReLi]. rewrite Rminus_0_r, Rabs_R1, ln_1. ring.
    + intros t Ht. assert (TT : t < 1) by (revert Ht; unfold Rmin, Rmax; destruct (Rle_dec 0 x); lra).
      apply (ex_derive_continuous (fun x => x * hornerZ (wl (Z.of_nat 1) D 1 zs) x - ReLi 1 x)). eexists.
      apply (is_derive_minus _ (ReLi 1)); [apply DR|]. cbn [ReLi].
      apply (is_derive_opp (fun t => ln (Rabs (1 - t)))).
      apply (is_derive_comp (fun u => ln (Rabs u)) (fun t => 1 - t)); [apply is_derive_lnabs; lra|]. auto_derive; [trivial|reflexivity].
    + intros t Ht. assert (TT : t < 1) by (revert Ht; unfold Rmin, Rmax; destruct (Rle_dec 0 x); lra).
      apply (is_derive_minus _ (ReLi 1)); [apply DR|]. cbn [ReLi].
      replace (/ (1 - t)) with (- (-1 * / (1 - t))) by ring.
      apply (is_derive_opp (fun t => ln (Rabs (1 - t)))).
      apply (is_derive_comp (fun u => ln (Rabs u)) (fun t => 1 - t)); [apply is_derive_lnabs; lra|]. auto_derive; [trivial|ring].
    + intros t Ht. apply H0. revert Ht; unfold Rmin, Rmax; destruct (Rle_dec 0 x); lra.
  - destruct (ReLi_props (S (S n)) ltac:(lia)) as (Z0 & C & _).
    apply (deriv_bound0 (fun x => x * hornerZ (wl (Z.of_nat (S (S n))) D 1 zs) x - ReLi (S (S n)) x) (fun x => hornerZ (wl (Z.of_nat (S n)) D 1 zs) x - ReLi (S n) x / x)).
    + rewrite Z0. ring.
    + intros t Ht. apply (continuous_minus _ (ReLi (S (S n)))); [|apply C].
      apply (ex_derive_continuous (fun x => x * hornerZ (wl (Z.of_nat (S (S n))) D 1 zs) x)). eexists. apply DR.
    + intros t Ht. assert (t <> 0 /\ t <> 1) as [T0 T1] by (revert Ht; unfold Rmin, Rmax; destruct (Rle_dec 0 x); lra).
      apply (is_derive_minus _ (ReLi (S (S n)))); [apply DR|]. apply ReLi_derive_n0; auto; lia.
    + intros t Ht. assert (t <> 0 /\ a <= t <= b) as [T0 T1] by (revert Ht; unfold Rmin, Rmax; destruct (Rle_dec 0 x); lra).
      specialize (IH t ltac:(lia) T1).
      replace (hornerZ (wl (Z.of_nat (S n)) D 1 zs) t - ReLi (S n) t / t) with ((t * hornerZ (wl (Z.of_nat (S n)) D 1 zs) t - ReLi (S n) t) * / t) by (field; exact T0).
      rewrite Rabs_mult, Rabs_Rinv by exact T0. assert (0 < Rabs t) by (apply Rabs_pos_lt; exact T0).
      apply Rmult_le_reg_r with (Rabs t); [assumption|]. rewrite Rmult_assoc, Rinv_l, Rmult_1_r by lra. exact IH.
Qed.
