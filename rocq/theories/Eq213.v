(** * Eq. (2.13) of the paper cited in Cl.cpp (Wu, Zhang, Liu): Clausen functions from
      log(2 sin(x/2)), the functions N_n and the zeta polynomial P_n.
      Nothing here mentions the code. *)
From Coq Require Import Reals Lra Lia Psatz ZArith List Bool.
From Coquelicot Require Import Coquelicot.
From Verif Require Import Polylog Polylog_series Fourier Clausen Clausen_vals Chain Bern Cot.
Local Open Scope R_scope.

Lemma is_derive_sum (f : nat -> R -> R) (g : nat -> R) K x : (forall i, (i <= K)%nat -> is_derive (f i) x (g i)) ->
  is_derive (fun x => sum_f_R0 (fun i => f i x) K) x (sum_f_R0 g K).
Proof.
  intros H. induction K as [|K IH]; [cbn [sum_f_R0]; apply H; lia|]. cbn [sum_f_R0].
  apply (is_derive_plus (fun x => sum_f_R0 (fun i => f i x) K) (f (S K))); [apply IH; intros i Hi; apply H; lia|apply H; lia].
Qed.
Lemma continuous_sum (f : nat -> R -> R) K x : (forall i, (i <= K)%nat -> continuous (f i) x) -> continuous (fun x => sum_f_R0 (fun i => f i x) K) x.
Proof.
  intros H. induction K as [|K IH]; [cbn [sum_f_R0]; apply H; lia|]. cbn [sum_f_R0].
  apply (continuous_plus (fun x => sum_f_R0 (fun i => f i x) K) (f (S K))); [apply IH; intros i Hi; apply H; lia|apply H; lia].
Qed.
(** sum_{i<=m} (-1)^i/(i!(m-i)!) = 0 *)
Lemma alt_binom m : (1 <= m)%nat -> sum_f_R0 (fun i => (-1) ^ i / INR (fact i) / INR (fact (m - i))) m = 0.
Proof.
  intros H. pose proof (binomial (-1) 1 m) as B. replace (-1 + 1) with 0 in B by ring. rewrite pow_i in B by lia.
  apply (Rmult_eq_reg_l (INR (fact m))); [|apply INR_fact_neq_0]. rewrite Rmult_0_r, scal_sum, B. apply sum_eq. intros i Hi. rewrite pow1. unfold Binomial.C.
  pose proof (INR_fact_neq_0 i). pose proof (INR_fact_neq_0 (m - i)). field. split; assumption.
Qed.

Section P.
Variables (bt : nat -> R) (K : nat).
(** the polynomial that stands for (x/2) cot(x/2) *)
Definition pK (x : R) : R := sum_f_R0 (fun k => bt k * x ^ (2 * k)) K.
(** (n+1) N_n(x) = sum_k b_k x^(2k+n+1)/(2k+n+1) *)
Definition Mn (n : nat) (x : R) : R := sum_f_R0 (fun k => bt k * x ^ (2 * k + n + 1) / INR (2 * k + n + 1)) K.
Lemma Mn_derive n x : is_derive (Mn n) x (x ^ n * pK x).
Proof.
  unfold Mn, pK. evar_last.
  - apply (is_derive_sum (fun k x => bt k * x ^ (2 * k + n + 1) / INR (2 * k + n + 1)) (fun k => bt k * x ^ (2 * k + n))). intros i Hi.
    replace (2 * i + n + 1)%nat with (S (2 * i + n)) by lia. apply (is_derive_ext (fun x => bt i / INR (S (2 * i + n)) * x ^ S (2 * i + n))); [intros t; toR; unfold Rdiv; ring|].
    evar_last; [apply mono_derive|]. toR. field. apply not_0_INR. lia.
  - toR. rewrite scal_sum. apply sum_eq. intros i Hi. rewrite pow_add. ring.
Qed.
Lemma Mn_continuous n x : continuous (Mn n) x.
Proof. apply (ex_derive_continuous (Mn n)). eexists. apply Mn_derive. Qed.
Lemma Mn_0 n : Mn n 0 = 0.
Proof. unfold Mn. apply sum_eq_R0. intros k Hk. rewrite pow_i by lia. unfold Rdiv. ring. Qed.
(** sum_{i<m} (-x)^i/i! M_(m-1-i)(x)/(m-i)! *)
Definition Hs (m : nat) (x : R) : R := match m with O => 0 | S q => sum_f_R0 (fun i => (- x) ^ i / INR (fact i) * (Mn (q - i) x / INR (fact (S q - i)))) q end.
Lemma negpow_derive i x : is_derive (fun x => (- x) ^ i / INR (fact i)) x (match i with O => 0 | S j => - ((- x) ^ j / INR (fact j)) end).
Proof.
  destruct i as [|j].
  - apply (is_derive_ext (fun _ => 1 / INR (fact 0))); [intros t; reflexivity|]. apply (is_derive_const (1 / INR (fact 0)) x).
  - apply (is_derive_ext (fun x => ((-1) ^ S j / INR (fact (S j))) * x ^ S j)).
    { intros t. toR. replace (- t) with (-1 * t) by ring. rewrite (Rpow_mult_distr (-1) t). unfold Rdiv. ring. }
    evar_last; [apply mono_derive|]. toR. rewrite fact_step. replace (- x) with (-1 * x) by ring. rewrite (Rpow_mult_distr (-1) x). pose proof (INR_fact_neq_0 j).
    assert (INR (S j) <> 0) by (apply not_0_INR; lia). change ((-1) ^ S j) with (-1 * (-1) ^ j). field. split; assumption.
Qed.
Lemma Hs_derive m x : is_derive (Hs (S m)) x (- Hs m x + (-1) ^ m * x ^ m / INR (fact (S m)) * pK x).
Proof.
  change (Hs (S m)) with (fun x => sum_f_R0 (fun i => (- x) ^ i / INR (fact i) * (Mn (m - i) x / INR (fact (S m - i)))) m).
  evar_last.
  - apply (is_derive_sum (fun i x => (- x) ^ i / INR (fact i) * (Mn (m - i) x / INR (fact (S m - i))))
      (fun i => (match i with O => 0 | S j => - ((- x) ^ j / INR (fact j)) end) * (Mn (m - i) x / INR (fact (S m - i))) + (- x) ^ i / INR (fact i) * (x ^ (m - i) * pK x / INR (fact (S m - i))))).
    intros i Hi. evar_last; [apply (is_derive_mult (fun x => (- x) ^ i / INR (fact i)) (fun x => Mn (m - i) x / INR (fact (S m - i)))); [apply negpow_derive| |intros; apply Rmult_comm]|toR; reflexivity].
    apply (is_derive_ext (fun x => / INR (fact (S m - i)) * Mn (m - i) x)); [intros; toR; unfold Rdiv; ring|].
    evar_last; [apply (is_derive_scal (Mn (m - i))); apply Mn_derive|]. toR. unfold Rdiv. ring.
  - toR. rewrite plus_sum. f_equal.
    + destruct m as [|q]; [cbn [sum_f_R0 Hs]; ring|]. rewrite (decomp_sum _ (S q)) by lia. cbn [Nat.pred]. rewrite Rmult_0_l, Rplus_0_l.
      unfold Hs. replace (- sum_f_R0 _ q) with (-1 * sum_f_R0 (fun i => (- x) ^ i / INR (fact i) * (Mn (q - i) x / INR (fact (S q - i)))) q) by ring. rewrite scal_sum. apply sum_eq. intros i Hi.
      change (S q - S i)%nat with (q - i)%nat. change (S (S q) - S i)%nat with (S q - i)%nat. ring.
    + assert (E : sum_f_R0 (fun i => (-1) ^ i / INR (fact i) / INR (fact (S m - i))) m = (-1) ^ m / INR (fact (S m))).
      { pose proof (alt_binom (S m) ltac:(lia)) as A. rewrite tech5, Nat.sub_diag in A. change (INR (fact 0)) with 1 in A. cbn [pow] in A. unfold Rdiv in *. lra. }
      replace ((-1) ^ m * x ^ m / INR (fact (S m)) * pK x) with (x ^ m * pK x * ((-1) ^ m / INR (fact (S m)))) by (unfold Rdiv; ring). rewrite <- E, scal_sum. apply sum_eq. intros i Hi.
      replace (x ^ m) with (x ^ i * x ^ (m - i)) by (rewrite <- pow_add; f_equal; lia). replace ((- x) ^ i) with ((-1) ^ i * x ^ i) by (rewrite <- Rpow_mult_distr; f_equal; ring). unfold Rdiv. ring.
Qed.
Lemma Hs_0 m : Hs m 0 = 0.
Proof. destruct m as [|m]; [reflexivity|]. unfold Hs. apply sum_eq_R0. intros i Hi. rewrite Mn_0. unfold Rdiv. ring. Qed.
Definition Js (m : nat) (x : R) : R := (-1) ^ S m * Hs m x.
Lemma Js_derive m x : is_derive (Js (S m)) x (Js m x + x ^ m / INR (fact (S m)) * pK x).
Proof.
  unfold Js. evar_last; [apply (is_derive_scal (Hs (S m))); apply Hs_derive|]. toR. cbn [pow].
  assert (E : (-1) ^ m * (-1) ^ m = 1) by (rewrite <- Rpow_mult_distr; replace (-1 * -1) with 1 by ring; apply pow1).
  replace (-1 * (-1 * (-1) ^ m) * (- Hs m x + (-1) ^ m * x ^ m / INR (fact (S m)) * pK x)) with (-1 * (-1) ^ m * Hs m x + ((-1) ^ m * (-1) ^ m) * (x ^ m / INR (fact (S m)) * pK x)) by (unfold Rdiv; ring).
  rewrite E. ring.
Qed.
(** the right hand side of Eq. (2.13) *)
Definition V213 (m : nat) (x : R) : R := - (x ^ m / INR (fact m) * ln (Rabs (2 * sin (x / 2)))) + Js m x + tp (fun j => Acl j 0) m x.
Definition E213 (m : nat) (x : R) : R := V213 m x - Acl m x.
Definition cotx (t : R) : R := / 2 * (cos (t / 2) / sin (t / 2)).
Lemma lnsin_derive t : 0 < t < 2 * PI -> is_derive (fun x => ln (Rabs (2 * sin (x / 2)))) t (cotx t).
Proof.
  intros Ht. assert (S0 : 0 < sin (t / 2)) by (apply sin_gt_0; lra).
  apply (is_derive_ext_loc (fun x => ln (2 * sin (x / 2)))).
  - assert (C : continuous (fun x => 2 * sin (x / 2)) t) by (apply (ex_derive_continuous (fun x => 2 * sin (x / 2))); auto_derive; trivial).
    assert (L : locally t (fun x => 0 < 2 * sin (x / 2))). { apply (C (fun y => 0 < y)). apply (open_gt 0). lra. }
    destruct L as [e L]. exists e. intros y Hy. rewrite Rabs_pos_eq; [reflexivity|]. specialize (L y Hy). cbn beta in L. lra.
  - unfold cotx. auto_derive; [lra|]. fold (t / 2). field. lra.
Qed.
Lemma E213_derive m t : 0 < t < 2 * PI -> is_derive (E213 (S m)) t (E213 m t + t ^ m / INR (fact (S m)) * (pK t - t * cotx t)).
Proof.
  intros Ht. unfold E213, V213.
  evar_last.
  - apply (is_derive_minus (fun x => - (x ^ S m / INR (fact (S m)) * ln (Rabs (2 * sin (x / 2)))) + Js (S m) x + tp (fun j => Acl j 0) (S m) x) (Acl (S m))); [|apply Acl_derive; exact Ht].
    apply (is_derive_plus (fun x => - (x ^ S m / INR (fact (S m)) * ln (Rabs (2 * sin (x / 2)))) + Js (S m) x) (tp (fun j => Acl j 0) (S m))); [|apply tp_derive].
    apply (is_derive_plus (fun x => - (x ^ S m / INR (fact (S m)) * ln (Rabs (2 * sin (x / 2))))) (Js (S m))); [|apply Js_derive].
    apply (is_derive_opp (fun x => x ^ S m / INR (fact (S m)) * ln (Rabs (2 * sin (x / 2))))).
    apply (is_derive_mult (fun x => x ^ S m / INR (fact (S m))) (fun x => ln (Rabs (2 * sin (x / 2)))) t (t ^ m / INR (fact m)) (cotx t)); [|apply lnsin_derive; exact Ht|intros; apply Rmult_comm].
    apply (is_derive_ext (fun x => / INR (fact (S m)) * x ^ S m)); [intros; toR; unfold Rdiv; ring|]. evar_last; [apply mono_derive|]. toR. rewrite fact_step.
    pose proof (INR_fact_neq_0 m). assert (INR (S m) <> 0) by (apply not_0_INR; lia). field. split; assumption.
  - toR. unfold minus, plus, opp, mult; cbn -[INR fact pow Acl tp Js pK]. cbn [pow]. pose proof (INR_fact_neq_0 (S m)). pose proof (INR_fact_neq_0 m). field. split; assumption.
Qed.
Lemma pow_continuous c m x : continuous (fun x => c * x ^ m) x.
Proof. apply (ex_derive_continuous (fun x => c * x ^ m)). auto_derive. trivial. Qed.
Lemma xml_continuous m : continuous (fun x => x ^ S m / INR (fact (S m)) * ln (Rabs (2 * sin (x / 2)))) 0.
Proof.
  apply (continuous_ext (fun x => (lp (S m) x + Hm (S m) / INR (fact (S m)) * x ^ S m) - / INR (fact (S m)) * x ^ S m * E1n x)).
  { intros x. toR. unfold E1n, lp. cbn [fact]. change (x ^ 0) with 1. change (INR 1) with 1. change (Hm 0) with 0. pose proof (INR_fact_neq_0 (S m)) as F. cbn [fact] in F. field. exact F. }
  apply (continuous_minus (fun x => lp (S m) x + Hm (S m) / INR (fact (S m)) * x ^ S m) (fun x => / INR (fact (S m)) * x ^ S m * E1n x)).
  - apply (continuous_plus (lp (S m)) (fun x => Hm (S m) / INR (fact (S m)) * x ^ S m)); [apply lp_continuous|apply pow_continuous].
  - apply (continuous_mult (fun x => / INR (fact (S m)) * x ^ S m) E1n); [apply pow_continuous|apply E1n_continuous].
Qed.
Lemma Js_continuous m x : continuous (Js (S m)) x.
Proof. apply (ex_derive_continuous (Js (S m))). eexists. apply Js_derive. Qed.
Lemma E213_continuous m : continuous (E213 (S m)) 0.
Proof.
  unfold E213, V213. apply (continuous_minus (fun x => - (x ^ S m / INR (fact (S m)) * ln (Rabs (2 * sin (x / 2)))) + Js (S m) x + tp (fun j => Acl j 0) (S m) x) (Acl (S m))); [|apply Acl_continuous].
  apply (continuous_plus (fun x => - (x ^ S m / INR (fact (S m)) * ln (Rabs (2 * sin (x / 2)))) + Js (S m) x) (tp (fun j => Acl j 0) (S m))); [|apply tp_continuous].
  apply (continuous_plus (fun x => - (x ^ S m / INR (fact (S m)) * ln (Rabs (2 * sin (x / 2))))) (Js (S m))); [|apply Js_continuous].
  apply (continuous_opp (fun x => x ^ S m / INR (fact (S m)) * ln (Rabs (2 * sin (x / 2))))). apply xml_continuous.
Qed.
Lemma E213_0 m : E213 (S m) 0 = 0.
Proof. unfold E213, V213. rewrite pow_i by lia. unfold Js. rewrite Hs_0, tp_0. unfold Rdiv. ring. Qed.
(** if the polynomial is within c0 of (x/2) cot(x/2) on (0,b), Eq. (2.13) holds within c0 H_m x^m/m! *)
Theorem V213_err c0 b : 0 <= c0 -> b <= 2 * PI -> (forall t, 0 < t < b -> Rabs (pK t - t * cotx t) <= c0) ->
  forall m x, 0 <= x < b -> Rabs (V213 (S m) x - Acl (S m) x) <= c0 * Hm (S m) / INR (fact (S m)) * x ^ S m.
Proof.
  intros C0 Hb HK.
  assert (G : forall m t, 0 < t < b -> Rabs (E213 m t + t ^ m / INR (fact (S m)) * (pK t - t * cotx t)) <= c0 * (Hm (S m) / INR (fact m)) * t ^ m).
  { intros m. induction m as [|m IH]; intros t Ht; pose proof (HK t Ht) as D.
    - unfold E213, V213, Js, Hs, Acl. cbn [tp pow fact Hm]. change (INR 1) with 1.
      match goal with |- Rabs ?u <= _ => replace u with (pK t - t * cotx t) end; [lra|].
      replace (- ln (Rabs (2 * sin (0 / 2)))) with 0; [change (INR (1 * 1)) with 1; field|]. replace (0 / 2) with 0 by field. rewrite sin_0, Rmult_0_r, Rabs_R0. unfold ln. destruct (Rlt_dec 0 0) as [Z|Z]; [exfalso; exact (Rlt_irrefl 0 Z)|ring].
    - assert (ES : Rabs (E213 (S m) t) <= c0 * (Hm (S m) / INR (fact m)) / INR (S m) * t ^ S m).
      { rewrite <- (Rminus_0_r (E213 (S m) t)), <- (E213_0 m). refine (chain_step (E213 (S m)) _ _ m b _ (E213_continuous m) IH t _); [|lra].
        intros u Hu. apply E213_derive. lra. }
      eapply Rle_trans; [apply Rabs_triang|]. rewrite Rabs_mult.
      assert (T : Rabs (t ^ S m / INR (fact (S (S m)))) = t ^ S m / INR (fact (S (S m)))) by (apply Rabs_pos_eq; apply Rmult_le_pos; [apply pow_le; lra|left; apply Rinv_0_lt_compat, INR_fact_lt_0]).
      rewrite T. assert (P : 0 <= t ^ S m) by (apply pow_le; lra). 
      assert (TT : t ^ S m / INR (fact (S (S m))) * Rabs (pK t - t * cotx t) <= t ^ S m / INR (fact (S (S m))) * c0) by (apply Rmult_le_compat_l; [rewrite <- T; apply Rabs_pos|exact D]).
      eapply Rle_trans; [apply Rplus_le_compat; [exact ES|exact TT]|]. right. change (Hm (S (S m))) with (Hm (S m) + / INR (S (S m))). rewrite (fact_step (S m)), (fact_step m).
      pose proof (INR_fact_neq_0 m). assert (INR (S m) <> 0) by (apply not_0_INR; lia). assert (INR (S (S m)) <> 0) by (apply not_0_INR; lia). field. repeat split; assumption. }
  intros m x Hx. change (Rabs (E213 (S m) x) <= c0 * Hm (S m) / INR (fact (S m)) * x ^ S m).
  rewrite <- (Rminus_0_r (E213 (S m) x)), <- (E213_0 m).
  eapply Rle_trans; [refine (chain_step (E213 (S m)) _ _ m b _ (E213_continuous m) (G m) x Hx); intros u Hu; apply E213_derive; lra|].
  right. rewrite (fact_step m). pose proof (INR_fact_neq_0 m). assert (INR (S m) <> 0) by (apply not_0_INR; lia). field. split; assumption.
Qed.
End P.
