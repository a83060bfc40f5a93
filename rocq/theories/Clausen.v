(** * The Clausen functions: specification and checked expansions about 0 and pi.

    [Clspec n x] is the Clausen function of order n: the sum of sin(kx)/k^n
    (even n) or cos(kx)/k^n (odd n); for n = 1, 0 < x < 2 pi the sum is
    -log(2 sin(x/2)) (Fourier.cosser_1).  Nothing here mentions the code. *)
From Coq Require Import Reals Lra Lia Psatz ZArith List Bool.
From Coquelicot Require Import Coquelicot.
From Interval Require Import Tactic.
From Verif Require Import Cheb Cheb_big Poly_check Fourier Polylog Polylog_series Polylog_eqs Chain.
Import ListNotations.
Local Open Scope R_scope.

Definition Clspec (n : nat) (x : R) : R := if Nat.even n then sinser n x else cosser n x.

(** ** error propagation along n derivatives *)
Lemma chain_n (E : nat -> R -> R) c k b : (forall n t, 0 < t < b -> is_derive (E (S n)) t (E n t)) ->
  (forall n, continuous (E (S n)) 0) -> (forall n, E (S n) 0 = 0) -> (forall t, 0 < t < b -> Rabs (E 0%nat t) <= c * t ^ k) ->
  forall n x, 0 < x < b -> Rabs (E n x) <= c / poch (S k) n * x ^ (k + n).
Proof.
  intros D C Z B n. induction n as [|n IH]; intros x Hx.
  - cbn [poch]. rewrite Nat.add_0_r. unfold Rdiv. rewrite Rinv_1, Rmult_1_r. apply B. exact Hx.
  - pose proof (chain_step (E (S n)) (E n) (c / poch (S k) n) (k + n) b (D n) (C n)) as K.
    replace (E (S n) x) with (E (S n) x - E (S n) 0) by (rewrite Z; ring).
    replace (k + S n)%nat with (S (k + n)) by lia. cbn [poch]. replace (S k + n)%nat with (S (k + n)) by lia.
    eapply Rle_trans; [apply K; [intros t Ht; apply IH; exact Ht|lra]|]. right.
    pose proof (poch_pos (S k) n ltac:(lia)). pose proof (lt_0_INR (S (k + n)) ltac:(lia)). field. lra.
Qed.

(** ** the pieces of the expansions: x^m/m! (log|x| - H_m) and Taylor polynomials *)
Fixpoint Hm (m : nat) : R := match m with O => 0 | S m' => Hm m' + / INR (S m') end.
Definition lp (m : nat) (x : R) : R := x ^ m / INR (fact m) * (ln (Rabs x) - Hm m).
Lemma lp_derive m x : x <> 0 -> is_derive (lp (S m)) x (lp m x).
Proof.
  intros Hx. unfold lp. pose proof (fact_pos m). pose proof (lt_0_INR (S m) ltac:(lia)).
  evar_last.
  - apply (is_derive_mult (fun x => x ^ S m / INR (fact (S m))) (fun x => ln (Rabs x) - Hm (S m)) x (INR (S m) / INR (fact (S m)) * x ^ m) (/ x)).
    + apply (is_derive_ext (fun x => / INR (fact (S m)) * x ^ S m)); [intros; toR; unfold Rdiv; ring|]. evar_last; [apply mono_derive|]. toR. unfold Rdiv. ring.
    + evar_last; [apply (is_derive_minus (fun x => ln (Rabs x)) (fun _ => Hm (S m))); [apply is_derive_lnabs; exact Hx|apply (is_derive_const (Hm (S m)) x)]|]. toR. unfold minus, plus, opp, zero; cbn. ring.
    + intros; apply Rmult_comm.
  - toR. unfold plus, mult; cbn -[INR fact pow Hm]. cbn [Hm]. rewrite fact_step. rewrite <- tech_pow_Rmult. field. lra.
Qed.
Lemma lp_continuous m x : continuous (lp (S m)) x.
Proof.
  unfold lp. apply (continuous_ext (fun x => x ^ m / INR (fact (S m)) * (x * ln (Rabs x)) - Hm (S m) / INR (fact (S m)) * x ^ S m)).
  { intros u. toR. rewrite <- tech_pow_Rmult. unfold Rdiv. ring. }
  apply (continuous_minus (fun x => x ^ m / INR (fact (S m)) * (x * ln (Rabs x))) (fun x => Hm (S m) / INR (fact (S m)) * x ^ S m)).
  - apply (continuous_mult (fun x => x ^ m / INR (fact (S m))) (fun x => x * ln (Rabs x))); [|apply xlnx_continuous].
    apply (continuous_ext (fun x => / INR (fact (S m)) * x ^ m)); [intros; toR; unfold Rdiv; ring|].
    apply (ex_derive_continuous (fun x => / INR (fact (S m)) * x ^ m)). auto_derive. trivial.
  - set (c := Hm (S m) / INR (fact (S m))). apply (ex_derive_continuous (fun x => c * x ^ S m)). eexists. apply mono_derive.
Qed.
Lemma lp_0 m : lp (S m) 0 = 0.
Proof. unfold lp. rewrite pow_i by lia. unfold Rdiv. ring. Qed.

(** sum_{i<=m} a_{m-i} x^i/i! *)
Fixpoint tp (a : nat -> R) (m : nat) (x : R) : R :=
  match m with O => a O | S m' => tp (fun j => a (S j)) m' x + a O * x ^ S m' / INR (fact (S m')) end.
Lemma tp_derive m : forall a x, is_derive (tp a (S m)) x (tp a m x).
Proof.
  induction m as [|m IH]; intros a x.
  - cbn [tp]. apply (is_derive_ext (fun x => a 1%nat + a 0%nat * x)); [intros; toR; change (fact 1) with 1%nat; change (INR 1) with 1; field|].
    auto_derive; [trivial|]. ring.
  - apply (is_derive_ext (fun x => tp (fun j => a (S j)) (S m) x + a O * x ^ S (S m) / INR (fact (S (S m))))); [reflexivity|].
    change (tp a (S m) x) with (tp (fun j => a (S j)) m x + a O * x ^ S m / INR (fact (S m))).
    apply (is_derive_plus (tp (fun j => a (S j)) (S m)) (fun x => a O * x ^ S (S m) / INR (fact (S (S m))))); [apply IH|].
    apply (is_derive_ext (fun x => a O / INR (fact (S (S m))) * x ^ S (S m))); [intros; toR; unfold Rdiv; ring|].
    evar_last; [apply mono_derive|]. rewrite (fact_step (S m)). pose proof (fact_pos (S m)). pose proof (lt_0_INR (S (S m)) ltac:(lia)). toR. field. lra.
Qed.
Lemma tp_continuous m a x : continuous (tp a m) x.
Proof. destruct m as [|m]; [apply continuous_const|]. apply (ex_derive_continuous (tp a (S m))). eexists. apply tp_derive. Qed.
Lemma tp_0 m : forall a, tp a m 0 = a m.
Proof. induction m as [|m IH]; intros a; cbn [tp]; [reflexivity|]. rewrite IH, pow_i by lia. unfold Rdiv. ring. Qed.

(** ** the Clausen functions with signs making each one the derivative of the next *)
Definition Acl (m : nat) (x : R) : R :=
  match m with O => - ln (Rabs (2 * sin (x / 2))) | S _ => (-1) ^ (Nat.div2 m) * Clspec (S m) x end.
Lemma Acl_odd k x : Acl (S (2 * k)) x = (-1) ^ k * sinser (S (S (2 * k))) x.
Proof. unfold Acl, Clspec. rewrite Nat.div2_succ_double. replace (Nat.even (S (S (2 * k)))) with true; [reflexivity|]. symmetry. change (Nat.even (2 * k) = true). apply Nat.even_mul. Qed.
Lemma Acl_even k x : Acl (S (S (2 * k))) x = (-1) ^ S k * cosser (S (S (S (2 * k)))) x.
Proof.
  unfold Acl, Clspec. replace (S (S (2 * k))) with (2 * S k)%nat by lia. rewrite Nat.div2_double.
  replace (Nat.even (S (2 * S k))) with false; [reflexivity|]. symmetry. rewrite Nat.even_succ, Nat.odd_mul. reflexivity.
Qed.
Lemma Acl_1_derive x : 0 < x < 2 * PI -> is_derive (Acl 1) x (Acl 0 x).
Proof.
  intros Hx. apply (is_derive_ext (sinser 2)); [intros t; change (sinser 2 t = Acl (S (2 * 0)) t); rewrite Acl_odd; change (2 * 0)%nat with 0%nat; cbn [pow]; ring|].
  cbn [Acl]. rewrite Rabs_pos_eq; [apply sinser_2_derive; exact Hx|]. pose proof (sin_half_pos x ltac:(lra) ltac:(lra)). lra.
Qed.
Lemma Acl_derive m x : 0 < x < 2 * PI -> is_derive (Acl (S m)) x (Acl m x).
Proof.
  intros Hx. destruct m as [|m]; [apply Acl_1_derive; exact Hx|].
  destruct (Nat.Even_or_Odd m) as [[k ->]|[k ->]].
  - rewrite Acl_odd. apply (is_derive_ext (fun x => (-1) ^ S k * cosser (S (S (S (2 * k)))) x)); [intros t; symmetry; apply Acl_even|].
    evar_last; [apply (is_derive_scal (cosser (S (S (S (2 * k))))) x ((-1) ^ S k)); apply cosser_derive; lia|].
    toR. change ((-1) ^ S k * - sinser (S (S (2 * k))) x = (-1) ^ k * sinser (S (S (2 * k))) x). cbn [pow]. ring.
  - replace (S (2 * k + 1)) with (S (S (2 * k))) by lia. rewrite Acl_even.
    apply (is_derive_ext (fun x => (-1) ^ S k * sinser (S (S (2 * S k))) x)); [intros t; replace (S (S (S (2 * k)))) with (S (2 * S k)) by lia; symmetry; apply Acl_odd|].
    replace (S (S (2 * S k))) with (S (S (S (S (2 * k))))) by lia.
    apply (is_derive_scal (sinser (S (S (S (S (2 * k)))))) x ((-1) ^ S k)). apply sinser_derive. lia.
Qed.
Lemma Acl_continuous m x : continuous (Acl (S m)) x.
Proof.
  destruct (Nat.Even_or_Odd m) as [[k ->]|[k ->]].
  - apply (continuous_ext (fun x => (-1) ^ k * sinser (S (S (2 * k))) x)); [intros t; symmetry; apply Acl_odd|].
    apply (continuous_scal_r ((-1) ^ k) (sinser (S (S (2 * k))))). apply sinser_continuous. lia.
  - replace (2 * k + 1)%nat with (S (2 * k)) by lia. apply (continuous_ext (fun x => (-1) ^ S k * cosser (S (S (S (2 * k)))) x)); [intros t; symmetry; apply Acl_even|].
    apply (continuous_scal_r ((-1) ^ S k) (cosser (S (S (S (2 * k)))))). apply cosser_continuous. lia.
Qed.
Definition Bcl (m : nat) (w : R) : R := (-1) ^ m * Acl m (PI - w).
Lemma Bcl_derive m w : - PI < w < PI -> is_derive (Bcl (S m)) w (Bcl m w).
Proof.
  intros Hw. unfold Bcl. evar_last.
  - apply (is_derive_scal (fun w => Acl (S m) (PI - w)) w ((-1) ^ S m)).
    apply (is_derive_comp (Acl (S m)) (fun w => PI - w)); [apply Acl_derive; lra|auto_derive; [trivial|reflexivity]].
  - toR. unfold scal; cbn. unfold mult; cbn. ring.
Qed.
Lemma Bcl_continuous m w : continuous (Bcl (S m)) w.
Proof.
  unfold Bcl. apply (continuous_scal_r ((-1) ^ S m) (fun w => Acl (S m) (PI - w))).
  apply (continuous_comp (fun w => PI - w) (Acl (S m))); [|apply Acl_continuous]. apply (ex_derive_continuous (fun w => PI - w)). auto_derive. trivial.
Qed.

(** ** order 1: log(sin(x/2)/(x/2)) tends to 0 *)
Lemma ln_near1 u : / 2 <= u <= 1 -> Rabs (ln u) <= 2 * (1 - u).
Proof.
  intros Hu. pose proof (ln_le_sub1 u ltac:(lra)). pose proof (ln_le_sub1 (/ u) ltac:(apply Rinv_0_lt_compat; lra)) as K. rewrite ln_Rinv in K by lra.
  assert (/ u - 1 <= 2 * (1 - u)). { apply (Rmult_le_reg_r u); [lra|]. rewrite Rmult_minus_distr_r, Rinv_l by lra. nra. }
  apply Rabs_le. lra.
Qed.
Lemma sin_sandwich t : 0 <= t -> t - t ^ 3 / 6 <= sin t <= t.
Proof.
  intros Ht. destruct (sin_cos_taylor 1) as [_ S1]. specialize (S1 t Ht). cbn [sT] in S1. change (2 * 0 + 1)%nat with 1%nat in S1. change (2 * 1 + 1)%nat with 3%nat in S1.
  cbn [pow] in S1. revert S1. fact_num. intros S1. apply Rabs_le_between in S1. split; [cbn [pow]; lra|].
  destruct (Req_dec t 0) as [->|N]; [rewrite sin_0; lra|]. left. apply sin_lt_x. lra.
Qed.
Definition E1n (x : R) : R := - ln (Rabs (2 * sin (x / 2))) + lp 0 x.
Lemma E1n_small x : Rabs x <= 1 -> Rabs (E1n x) <= Rabs x.
Proof.
  intros H. destruct (Req_dec x 0) as [->|N].
  { unfold E1n, lp. replace (0 / 2) with 0 by lra. rewrite sin_0, Rmult_0_r, Rabs_R0, ln_0. cbn [pow fact Hm]. change (INR 1) with 1. rewrite Rabs_right; lra. }
  assert (P : forall x, 0 < x <= 1 -> Rabs (E1n x) <= x).
  { clear. intros x H. unfold E1n, lp. cbn [pow fact Hm]. change (INR 1) with 1. pose proof (sin_sandwich (x / 2) ltac:(lra)) as S. 
    assert (X2 : x * x <= 1) by nra.
    assert (S2 : x * (1 - x * x / 24) <= 2 * sin (x / 2) <= x) by (cbn [pow] in S; nra).
    assert (S0 : 0 < 2 * sin (x / 2)) by nra.
    rewrite (Rabs_pos_eq x), (Rabs_pos_eq (2 * sin (x / 2))) by lra.
    replace (- ln (2 * sin (x / 2)) + 1 / 1 * (ln x - 0)) with (- (ln (2 * sin (x / 2)) - ln x)) by field. rewrite Rabs_Ropp, <- ln_div by lra.
    assert (U : 1 - x * x / 24 <= 2 * sin (x / 2) / x <= 1).
    { split; [apply Rle_div_r; lra|]. apply Rle_div_l; lra. }
    eapply Rle_trans; [apply ln_near1; lra|]. nra. }
  destruct (Rlt_le_dec 0 x) as [L|L].
  - rewrite (Rabs_pos_eq x) in * by lra. apply P. lra.
  - replace (E1n x) with (E1n (- x)).
    + rewrite (Rabs_left1 x) in * by lra. apply P. lra.
    + unfold E1n, lp. replace (- x / 2) with (- (x / 2)) by field. rewrite sin_neg, Ropp_mult_distr_r_reverse, !Rabs_Ropp. reflexivity.
Qed.
Lemma E1n_continuous : continuous E1n 0.
Proof.
  intros P [e He]. assert (m0 : 0 < Rmin 1 e) by (apply Rmin_glb_lt; [lra|destruct e; cbn; lra]). exists (mkposreal _ m0). intros t Ht.
  change (Rabs (t - 0) < Rmin 1 e) in Ht. rewrite Rminus_0_r in Ht. pose proof (Rmin_l 1 e). pose proof (Rmin_r 1 e).
  apply He. change (Rabs (E1n t - E1n 0) < e).
  pose proof (E1n_small 0 ltac:(rewrite Rabs_R0; lra)) as Z. rewrite Rabs_R0 in Z. pose proof (Rabs_pos (E1n 0)).
  replace (E1n 0) with 0; [rewrite Rminus_0_r; pose proof (E1n_small t ltac:(lra)); lra|].
  destruct (Req_dec (E1n 0) 0) as [->|N]; [reflexivity|]. apply Rabs_pos_lt in N. lra.
Qed.
Lemma E1n_0 : E1n 0 = 0.
Proof.
  unfold E1n, lp. replace (0 / 2) with 0 by lra. rewrite sin_0, Rmult_0_r, Rabs_R0, ln_0. cbn [pow fact Hm]. change (INR 1) with 1. field.
Qed.

(** ** expansion about 0 *)
Section Near.
Variables (s : list Z) (D : R).
Hypothesis D0 : D <> 0.
Lemma rpD_derive' n t : is_derive (fun t => rp s (S n) 1 t / D) t (rp s n 1 t / D).
Proof. apply (is_derive_ext (fun t => / D * rp s (S n) 1 t)); [intros; toR; unfold Rdiv; ring|]. evar_last; [apply (is_derive_scal (rp s (S n) 1) t (/ D)); apply rp_derive; lia|]. toR. unfold Rdiv. change (/ D * rp s n 1 t = rp s n 1 t * / D). ring. Qed.
Lemma rpD_cont' n t : continuous (fun t => rp s n 1 t / D) t.
Proof. apply (continuous_ext (fun t => / D * rp s n 1 t)); [intros; toR; unfold Rdiv; ring|]. apply (continuous_scal_r (/ D) (rp s n 1)). apply rp_continuous. lia. Qed.
Definition nearR (m : nat) (x : R) : R := - lp m x + tp (fun j => Acl j 0) m x + rp s (S m) 1 x / D.
Definition nearE (n : nat) (x : R) : R :=
  match n with O => - (/ 2 * (cos (x / 2) / sin (x / 2))) + / x - rp s 0 1 x / D | S m => Acl m x - nearR m x end.
Lemma Acl_0_0 : Acl 0 0 = 0.
Proof. cbn [Acl]. replace (0 / 2) with 0 by lra. rewrite sin_0, Rmult_0_r, Rabs_R0, ln_0. ring. Qed.
Lemma near_derive n t : 0 < t < 2 * PI -> is_derive (nearE (S n)) t (nearE n t).
Proof.
  intros Ht. destruct n as [|n]; cbn [nearE].
  - pose proof (sin_half_pos t ltac:(lra) ltac:(lra)) as S.
    apply (is_derive_ext (fun t => (- ln (Rabs (2 * sin (t / 2))) + ln (Rabs t)) - (Acl 0 0 + rp s 1 1 t / D))).
    { intros u. toR. change (nearE 1 u) with (Acl 0 u - (- lp 0 u + Acl 0 0 + rp s 1 1 u / D)). unfold lp. cbn [Hm]. change (fact 0) with 1%nat. change (INR 1) with 1. change (u ^ 0) with 1. set (z := Acl 0 0). change (Acl 0 u) with (- ln (Rabs (2 * sin (u / 2)))). field. exact D0. }
    evar_last.
    + apply (is_derive_minus (fun t => - ln (Rabs (2 * sin (t / 2))) + ln (Rabs t)) (fun t => Acl 0 0 + rp s 1 1 t / D)).
      * apply (is_derive_plus (fun t => - ln (Rabs (2 * sin (t / 2)))) (fun t => ln (Rabs t))); [|apply is_derive_lnabs; lra].
        apply (is_derive_opp (fun t => ln (Rabs (2 * sin (t / 2))))).
        apply (is_derive_comp (fun u => ln (Rabs u)) (fun t => 2 * sin (t / 2))); [apply is_derive_lnabs; lra|]. auto_derive; [trivial|reflexivity].
      * apply (is_derive_plus (fun _ => Acl 0 0) (fun t => rp s 1 1 t / D)); [apply (is_derive_const (Acl 0 0) t)|apply rpD_derive'].
    + toR. unfold minus, plus, opp, scal, zero; cbn. unfold mult; cbn. replace (t * / 2) with (t / 2) by reflexivity. field. repeat split; first [exact D0|lra].
  - unfold nearR. apply (is_derive_minus (Acl (S n)) (fun x => - lp (S n) x + tp (fun j => Acl j 0) (S n) x + rp s (S (S n)) 1 x / D)); [apply Acl_derive; exact Ht|].
    apply (is_derive_plus (fun x => - lp (S n) x + tp (fun j => Acl j 0) (S n) x) (fun x => rp s (S (S n)) 1 x / D)); [|apply rpD_derive'].
    apply (is_derive_plus (fun x => - lp (S n) x) (tp (fun j => Acl j 0) (S n))); [|apply tp_derive]. apply (is_derive_opp (lp (S n))). apply lp_derive. lra.
Qed.
Lemma near_continuous n : continuous (nearE (S n)) 0.
Proof.
  destruct n as [|n].
  - apply (continuous_ext (fun x => E1n x - (Acl 0 0 + rp s 1 1 x / D))).
    { intros u. toR. change (nearE 1 u) with (Acl 0 u - (- lp 0 u + Acl 0 0 + rp s 1 1 u / D)). unfold E1n. change (Acl 0 u) with (- ln (Rabs (2 * sin (u / 2)))). ring. }
    apply (continuous_minus E1n (fun x => Acl 0 0 + rp s 1 1 x / D)); [apply E1n_continuous|].
    apply (continuous_plus (fun _ => Acl 0 0) (fun x => rp s 1 1 x / D)); [apply continuous_const|apply rpD_cont'].
  - cbn [nearE]. unfold nearR. apply (continuous_minus (Acl (S n)) (fun x => - lp (S n) x + tp (fun j => Acl j 0) (S n) x + rp s (S (S n)) 1 x / D)); [apply Acl_continuous|].
    apply (continuous_plus (fun x => - lp (S n) x + tp (fun j => Acl j 0) (S n) x) (fun x => rp s (S (S n)) 1 x / D)); [|apply rpD_cont'].
    apply (continuous_plus (fun x => - lp (S n) x) (tp (fun j => Acl j 0) (S n))); [|apply tp_continuous]. apply (continuous_opp (lp (S n))). apply lp_continuous.
Qed.
Lemma near_0 n : nearE (S n) 0 = 0.
Proof.
  cbn [nearE]. unfold nearR. rewrite tp_0, rp_0 by lia. destruct n as [|n]; [|rewrite lp_0; unfold Rdiv; ring].
  assert (Z : lp 0 0 = 0) by (unfold lp; rewrite Rabs_R0, ln_0; cbn [Hm]; unfold Rdiv; ring).
  rewrite Z. unfold Rdiv. ring.
Qed.
Theorem near_bound c k b : b <= 2 * PI -> (forall t, 0 < t < b -> Rabs (- (/ 2 * (cos (t / 2) / sin (t / 2))) + / t - rp s 0 1 t / D) <= c * t ^ k) ->
  forall m x, 0 < x < b -> Rabs (Acl m x - nearR m x) <= c / poch (S k) (S m) * x ^ (k + S m).
Proof.
  intros Hb B m x Hx. change (Acl m x - nearR m x) with (nearE (S m) x). apply (chain_n nearE c k b); [intros n t Ht; apply near_derive; lra|intros n; apply near_continuous|apply near_0|exact B|exact Hx].
Qed.
(** ** expansion about pi *)
Definition farR (m : nat) (w : R) : R := tp (fun j => Bcl j 0) m w + rp s (S m) 1 w / D.
Definition farE (n : nat) (w : R) : R :=
  match n with O => / 2 * (sin (w / 2) / cos (w / 2)) - rp s 0 1 w / D | S m => Bcl m w - farR m w end.
Lemma Bcl_0_eq w : Bcl 0 w = - ln (Rabs (2 * cos (w / 2))).
Proof. unfold Bcl, Acl. cbn [pow]. rewrite Rmult_1_l. do 4 f_equal. replace ((PI - w) / 2) with (PI / 2 - w / 2) by field. apply sin_shift. Qed.
Lemma cos_half_pos w : - PI < w < PI -> 0 < cos (w / 2).
Proof. intros H. apply cos_gt_0; lra. Qed.
Lemma Bcl_0_derive t : - PI < t < PI -> is_derive (Bcl 0) t (/ 2 * (sin (t / 2) / cos (t / 2))).
Proof.
  intros Ht. pose proof (cos_half_pos t Ht) as C.
  apply (is_derive_ext (fun t => - ln (Rabs (2 * cos (t / 2))))); [intros u; symmetry; apply Bcl_0_eq|].
  evar_last.
  - apply (is_derive_opp (fun t => ln (Rabs (2 * cos (t / 2))))).
    apply (is_derive_comp (fun u => ln (Rabs u)) (fun t => 2 * cos (t / 2))); [apply is_derive_lnabs; lra|]. auto_derive; [trivial|reflexivity].
  - toR. unfold opp, scal; cbn. unfold mult; cbn. replace (t * / 2) with (t / 2) by reflexivity. field. lra.
Qed.
Lemma far_derive n t : - PI < t < PI -> is_derive (farE (S n)) t (farE n t).
Proof.
  intros Ht. cbn [farE]. unfold farR.
  assert (K : is_derive (fun w => tp (fun j => Bcl j 0) n w + rp s (S n) 1 w / D) t (match n with O => 0 | S m => tp (fun j => Bcl j 0) m t end + rp s n 1 t / D)).
  { apply (is_derive_plus (tp (fun j => Bcl j 0) n) (fun w => rp s (S n) 1 w / D)); [|apply rpD_derive']. destruct n; [apply (is_derive_const (Bcl 0 0) t)|apply tp_derive]. }
  destruct n as [|n].
  - evar_last; [apply (is_derive_minus (Bcl 0) (fun w => tp (fun j => Bcl j 0) 0 w + rp s 1 1 w / D)); [apply Bcl_0_derive; exact Ht|exact K]|].
    cbn [farE]. unfold minus, plus, opp; cbn; toR; ring.
  - evar_last; [apply (is_derive_minus (Bcl (S n)) (fun w => tp (fun j => Bcl j 0) (S n) w + rp s (S (S n)) 1 w / D)); [apply Bcl_derive; exact Ht|exact K]|].
    cbn [farE]. unfold farR, minus, plus, opp; cbn; toR; ring.
Qed.
Lemma far_continuous n : continuous (farE (S n)) 0.
Proof. pose proof PI_RGT_0. apply (ex_derive_continuous (farE (S n))). eexists. apply far_derive. lra. Qed.
Lemma far_0 n : farE (S n) 0 = 0.
Proof. cbn [farE]. unfold farR. rewrite tp_0, rp_0 by lia. unfold Rdiv. ring. Qed.
Theorem far_bound c k b : b <= PI -> (forall t, 0 < t < b -> Rabs (/ 2 * (sin (t / 2) / cos (t / 2)) - rp s 0 1 t / D) <= c * t ^ k) ->
  forall m x, 0 < x < b -> Rabs (Bcl m x - farR m x) <= c / poch (S k) (S m) * x ^ (k + S m).
Proof.
  intros Hb B m x Hx. change (Bcl m x - farR m x) with (farE (S m) x). apply (chain_n farE c k b); [intros n t Ht; apply far_derive; lra|intros n; apply far_continuous|apply far_0|exact B|exact Hx].
Qed.
End Near.
