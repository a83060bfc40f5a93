(** * Error propagation along a chain of derivatives; Taylor enclosures of
      exp, sin and cos.  Nothing here mentions the code. *)
From Coq Require Import Reals Lra Lia Psatz ZArith List Bool.
From Coquelicot Require Import Coquelicot.
From Verif Require Import Cheb Poly_check Fourier.
Import ListNotations.
Local Open Scope R_scope.

Ltac toR := match goal with |- ?a = ?b => change (@eq R a b) end.
(** if f' = g on (0,b), |g t| <= c t^k, and f is continuous at 0, then |f x - f 0| <= c x^(k+1)/(k+1) *)
Lemma chain_step (f g : R -> R) c k b : (forall t, 0 < t < b -> is_derive f t (g t)) -> continuous f 0 ->
  (forall t, 0 < t < b -> Rabs (g t) <= c * t ^ k) -> forall x, 0 <= x < b -> Rabs (f x - f 0) <= c / INR (S k) * x ^ S k.
Proof.
  intros D C B x Hx. destruct (Req_dec x 0) as [->|N]; [rewrite Rminus_eq_0, Rabs_R0; cbn [pow]; lra|].
  assert (K0 : INR (S k) <> 0) by (apply not_0_INR; lia).
  (* phi t = +-f t + c/(k+1) t^(k+1) is non-decreasing on [0,x] *)
  assert (M : forall s, s = 1 \/ s = -1 -> s * (f x - f 0) <= c / INR (S k) * x ^ S k).
  { intros s Hs. set (phi := fun t => c / INR (S k) * t ^ S k - s * f t). set (dphi := fun t => c * t ^ k - s * g t).
    assert (DP : forall t, 0 < t < b -> is_derive phi t (dphi t)).
    { intros t Ht. apply (is_derive_minus (fun t => c / INR (S k) * t ^ S k) (fun t => s * f t)).
      - auto_derive; [trivial|]. rewrite Rmult_1_l. change (Init.Nat.pred (S k)) with k. field. exact K0.
      - apply (is_derive_scal f t s (g t)). apply D. exact Ht. }
    assert (CP : forall t, 0 <= t <= x -> continuous phi t).
    { intros t Ht. apply (continuous_minus (fun t => c / INR (S k) * t ^ S k) (fun t => s * f t)).
      - apply (ex_derive_continuous (fun t => c / INR (S k) * t ^ S k)). auto_derive. trivial.
      - apply (continuous_scal_r s f). destruct (Req_dec t 0) as [->|]; [exact C|]. apply (ex_derive_continuous f). eexists. apply D. lra. }
    destruct (MVT_gen phi 0 x dphi) as (z & Hz & E).
    - rewrite Rmin_left, Rmax_right by lra. intros t Ht. apply DP. lra.
    - rewrite Rmin_left, Rmax_right by lra. intros t Ht. apply continuity_pt_filterlim. apply CP. exact Ht.
    - rewrite Rmin_left, Rmax_right in Hz by lra.
      assert (P : 0 <= phi x - phi 0).
      { (* MVT_gen gives a point of the closed interval; argue by monotonicity instead *)
        destruct (Rle_dec 0 (phi x - phi 0)) as [L|L]; [exact L|]. exfalso.
        assert (NN : forall t, 0 < t < b -> 0 <= dphi t).
        { intros t Ht. unfold dphi. specialize (B t Ht). apply Rabs_le_between in B. destruct Hs as [->| ->]; lra. }
        rewrite E in L. destruct (Req_dec z 0) as [Z0|Z0]; [|apply L; apply Rmult_le_pos; [apply NN; lra|lra]].
        (* z = 0 : use a strictly interior point by continuity *)
        assert (IC : forall u v, 0 < u -> u <= v -> v <= x -> phi u <= phi v).
        { intros u v Hu Huv Hv. destruct (MVT_gen phi u v dphi) as (z' & Hz' & E').
          - rewrite Rmin_left, Rmax_right by lra. intros t Ht. apply DP. lra.
          - rewrite Rmin_left, Rmax_right by lra. intros t Ht. apply continuity_pt_filterlim. apply CP. lra.
          - rewrite Rmin_left, Rmax_right in Hz' by lra. specialize (NN z' ltac:(lra)). nra. }
        pose proof (CP 0 ltac:(lra)) as C0. rewrite <- E in L.
        assert (d0 : 0 < phi 0 - phi x) by lra. destruct (C0 (fun y => Rabs (y - phi 0) < phi 0 - phi x)) as [e He].
        - exists (mkposreal _ d0). intros y Hy. exact Hy.
        - pose (t := Rmin x (e / 2)). assert (Ht : 0 < t <= x) by (unfold t; split; [apply Rmin_glb_lt; [lra|destruct e; cbn; lra]|apply Rmin_l]).
          assert (Te : t < e) by (unfold t; eapply Rle_lt_trans; [apply Rmin_r|destruct e; cbn; lra]).
          assert (BT : ball 0 e t) by (change (Rabs (t - 0) < e); rewrite Rminus_0_r, Rabs_pos_eq; lra).
          specialize (He t BT). apply Rabs_def2 in He. pose proof (IC t x ltac:(lra) ltac:(lra) ltac:(lra)). lra. }
      unfold phi in P. rewrite pow_i in P by lia. lra. }
  apply Rabs_le. pose proof (M 1 (or_introl eq_refl)). pose proof (M (-1) (or_intror eq_refl)). lra.
Qed.

(** ** polynomials given by a list s of coefficients of the n-fold derivative:
      [rp s n k x] = sum_j s_j x^(2(k+j)+n-1) / (2(k+j) (2(k+j)+1) ... (2(k+j)+n-1)) *)
Fixpoint poch (a n : nat) : R := match n with O => 1 | S n' => poch a n' * INR (a + n') end.
Lemma poch_pos a n : (1 <= a)%nat -> 0 < poch a n.
Proof. intros H. induction n as [|n IH]; cbn [poch]; [lra|]. apply Rmult_lt_0_compat; [exact IH|]. apply lt_0_INR. lia. Qed.
Lemma mono_derive (c : R) (p : nat) (x : R) : is_derive (fun x => c * x ^ S p) x (c * INR (S p) * x ^ p).
Proof. auto_derive; [trivial|]. change (match p with O => 1 | S _ => INR p + 1 end) with (INR (S p)). cbn [Init.Nat.pred]. ring. Qed.
Fixpoint rp (s : list Z) (n k : nat) (x : R) : R :=
  match s with [] => 0 | a :: s' => IZR a / poch (2 * k) n * x ^ (2 * k + n - 1) + rp s' n (S k) x end.
Lemma rp_derive s n : forall k x, (1 <= k)%nat -> is_derive (rp s (S n) k) x (rp s n k x).
Proof.
  induction s as [|a s IH]; intros k x Hk; cbn [rp]; [apply (is_derive_const 0 x)|].
  apply (is_derive_plus (fun x => IZR a / poch (2 * k) (S n) * x ^ (2 * k + S n - 1)) (rp s (S n) (S k))); [|apply IH; lia].
  replace (2 * k + S n - 1)%nat with (S (2 * k + n - 1)) by lia.
  evar_last; [apply mono_derive|]. cbn [poch]. pose proof (poch_pos (2 * k) n ltac:(lia)) as P.
  replace (S (2 * k + n - 1)) with (2 * k + n)%nat by lia.
  assert (INR (2 * k + n) <> 0) by (apply not_0_INR; lia). field. split; [lra|exact H].
Qed.
Lemma rp_0 s n : forall k, (1 <= k)%nat -> rp s n k 0 = 0.
Proof. induction s as [|a s IH]; intros k Hk; cbn [rp]; [reflexivity|]. rewrite IH by lia. rewrite pow_i by lia. ring. Qed.
Lemma rp_continuous s n k x : (1 <= k)%nat -> continuous (rp s n k) x.
Proof.
  revert k. induction s as [|a s IH]; intros k Hk; cbn [rp]; [apply continuous_const|].
  apply (continuous_plus (fun x => IZR a / poch (2 * k) n * x ^ (2 * k + n - 1)) (rp s n (S k))); [|apply IH; lia].
  apply (ex_derive_continuous (fun x => IZR a / poch (2 * k) n * x ^ (2 * k + n - 1))). auto_derive. trivial.
Qed.
(** the same polynomial as an integer list in x^2 over a common denominator M *)
Fixpoint pochZ (a : Z) (n : nat) : Z := match n with O => 1%Z | S n' => (pochZ a n' * (a + Z.of_nat n'))%Z end.
Lemma pochZ_ok a n : IZR (pochZ (Z.of_nat a) n) = poch a n.
Proof. induction n as [|n IH]; cbn [pochZ poch]; [reflexivity|]. rewrite mult_IZR, IH, <- Nat2Z.inj_add, <- INR_IZR_INZ. reflexivity. Qed.
Fixpoint rpz (s : list Z) (n k : nat) (M : Z) : list Z :=
  match s with [] => [] | a :: s' => (a * (M / pochZ (2 * Z.of_nat k) n))%Z :: rpz s' n (S k) M end.
Fixpoint rp_div (s : list Z) (n k : nat) (M : Z) : bool :=
  match s with [] => true | _ :: s' => (M mod pochZ (2 * Z.of_nat k) n =? 0)%Z && rp_div s' n (S k) M end.
Lemma rpz_ok s n M : forall k x, (1 <= k)%nat -> rp_div s n k M = true ->
  IZR M * rp s n k x = x ^ (2 * k + n - 1) * pz (rpz s n k M) (x * x).
Proof.
  induction s as [|a s IH]; intros k x Hk H; cbn [rp rpz pz]; [ring|]. cbn [rp_div] in H. rewrite andb_true_iff, Z.eqb_eq in H. destruct H as [H1 H2].
  rewrite Rmult_plus_distr_l, (IH (S k) x ltac:(lia) H2). rewrite mult_IZR.
  replace (2 * Z.of_nat k)%Z with (Z.of_nat (2 * k)) in * by lia.
  pose proof (poch_pos (2 * k) n ltac:(lia)) as P. rewrite <- pochZ_ok in P.
  assert (E : (M = pochZ (Z.of_nat (2 * k)) n * (M / pochZ (Z.of_nat (2 * k)) n))%Z).
  { apply Z.div_exact; [|exact H1]. intros E0. rewrite E0 in P. lra. }
  rewrite <- pochZ_ok. rewrite E at 1. rewrite mult_IZR. set (q := (M / pochZ (Z.of_nat (2 * k)) n)%Z).
  replace (2 * S k + n - 1)%nat with (2 + (2 * k + n - 1))%nat by lia. rewrite pow_add. cbn [pow]. field. lra.
Qed.

(** ** vanishing low-order coefficients *)
Definition low0 (k : nat) (l : list Z) : bool := forallb (fun a => (a =? 0)%Z) (firstn k l).
Lemma low0_ok k : forall l x, low0 k l = true -> pz l x = x ^ k * pz (skipn k l) x.
Proof.
  unfold low0. induction k as [|k IH]; intros l x H; [rewrite pow_O, Rmult_1_l; reflexivity|].
  destruct l as [|a l]; [cbn [skipn pz]; ring|]. cbn [firstn forallb] in H. rewrite andb_true_iff, Z.eqb_eq in H. destruct H as [-> H].
  cbn [pz skipn]. rewrite (IH l x H). cbn [pow]. ring.
Qed.

(** ** Taylor polynomials with remainders, on t >= 0 *)
Lemma fact_pos n : 0 < INR (fact n).
Proof. apply lt_0_INR, lt_O_fact. Qed.
Lemma fact_step n : INR (fact (S n)) = INR (S n) * INR (fact n).
Proof. change (fact (S n)) with (S n * fact n)%nat. apply mult_INR. Qed.
Fixpoint factZ (n : nat) : Z := match n with O => 1%Z | S n' => (Z.of_nat n * factZ n')%Z end.
Lemma factZ_ok n : INR (fact n) = IZR (factZ n).
Proof. induction n as [|n IH]; [reflexivity|]. rewrite fact_step, IH. cbn [factZ]. rewrite mult_IZR, <- INR_IZR_INZ. reflexivity. Qed.
Ltac fact_num := repeat (match goal with |- context [INR (fact ?k)] => let v := eval vm_compute in (factZ k) in replace (INR (fact k)) with (IZR v) by (rewrite factZ_ok; reflexivity) end).
Lemma pow_step_bound c k x : c = / INR (fact k) -> c / INR (S k) * x ^ S k = x ^ S k / INR (fact (S k)).
Proof. intros ->. rewrite fact_step. pose proof (fact_pos k). pose proof (lt_0_INR (S k) ltac:(lia)). field. lra. Qed.

(** exp(-t) *)
Fixpoint eT (m : nat) (t : R) : R := match m with O => 0 | S m' => eT m' t + (- t) ^ m' / INR (fact m') end.
Lemma eT_derive m : forall t, is_derive (eT (S m)) t (- eT m t).
Proof.
  induction m as [|m IH]; intros t.
  - apply (is_derive_ext (fun _ : R => 1)); [intros u; cbn [eT pow fact]; change (INR 1) with 1; toR; field|].
    cbn [eT]. rewrite Ropp_0. apply (is_derive_const 1 t).
  - apply (is_derive_ext (fun u => eT (S m) u + (- u) ^ S m / INR (fact (S m)))); [reflexivity|].
    change (eT (S m) t) with (eT m t + (- t) ^ m / INR (fact m)). rewrite Ropp_plus_distr.
    apply (is_derive_plus (eT (S m)) (fun u => (- u) ^ S m / INR (fact (S m)))); [apply IH|].
    assert (OP : forall k u, (- u) ^ k = (-1) ^ k * u ^ k) by (intros k u; rewrite <- Rpow_mult_distr; f_equal; ring).
    apply (is_derive_ext (fun u => (-1) ^ S m / INR (fact (S m)) * u ^ S m)); [intros u; rewrite OP; toR; unfold Rdiv; ring|].
    evar_last; [apply mono_derive|]. rewrite OP, fact_step. pose proof (fact_pos m). pose proof (lt_0_INR (S m) ltac:(lia)). rewrite <- tech_pow_Rmult. toR. field. lra.
Qed.
Lemma exp_neg_taylor m : forall t, 0 <= t -> Rabs (exp (- t) - eT m t) <= t ^ m / INR (fact m).
Proof.
  induction m as [|m IH]; intros t Ht.
  - cbn [eT pow fact]. change (INR 1) with 1. rewrite Rminus_0_r, Rabs_pos_eq by (left; apply exp_pos). 
    assert (exp (- t) <= exp 0) by (destruct (Req_dec t 0) as [->|]; [rewrite Ropp_0; lra|left; apply exp_increasing; lra]). rewrite exp_0 in H. lra.
  - pose proof (chain_step (fun u => exp (- u) - eT (S m) u) (fun u => - exp (- u) - - eT m u) (/ INR (fact m)) m (t + 1)) as K.
     rewrite <- (pow_step_bound _ m t eq_refl).
    assert (E0 : eT (S m) 0 = 1).
    { clear. induction m as [|m IH]; [cbn [eT pow fact]; change (INR 1) with 1; field|]. change (eT (S (S m)) 0) with (eT (S m) 0 + (- 0) ^ S m / INR (fact (S m))). rewrite IH, Ropp_0, pow_i by lia. unfold Rdiv. ring. }
    assert (D : forall u, is_derive (fun u => exp (- u) - eT (S m) u) u (- exp (- u) - - eT m u)).
    { intros u. apply (is_derive_minus (fun u => exp (- u)) (eT (S m))); [auto_derive; [trivial|ring]|apply eT_derive]. }
    replace (exp (- t) - eT (S m) t) with (exp (- t) - eT (S m) t - (exp (- 0) - eT (S m) 0)) by (rewrite E0, Ropp_0, exp_0; ring).
    apply K; [intros; apply D| |intros u Hu|lra].
    + apply (ex_derive_continuous (fun u => exp (- u) - eT (S m) u)). eexists. apply D.
    + replace (- exp (- u) - - eT m u) with (- (exp (- u) - eT m u)) by ring. rewrite Rabs_Ropp.
      eapply Rle_trans; [apply IH; lra|]. right. unfold Rdiv. ring.
Qed.
(** sin, cos: Taylor partial sums with m terms *)
Fixpoint sT (m : nat) (t : R) : R := match m with O => 0 | S m' => sT m' t + (-1) ^ m' * t ^ (2 * m' + 1) / INR (fact (2 * m' + 1)) end.
Fixpoint cT (m : nat) (t : R) : R := match m with O => 0 | S m' => cT m' t + (-1) ^ m' * t ^ (2 * m') / INR (fact (2 * m')) end.
Lemma sT_derive m : forall t, is_derive (sT m) t (cT m t).
Proof.
  induction m as [|m IH]; intros t; [apply (is_derive_const 0 t)|]. cbn [sT cT].
  apply (is_derive_plus (sT m) (fun t => (-1) ^ m * t ^ (2 * m + 1) / INR (fact (2 * m + 1)))); [apply IH|].
  replace (2 * m + 1)%nat with (S (2 * m)) by lia.
  apply (is_derive_ext (fun u => (-1) ^ m / INR (fact (S (2 * m))) * u ^ S (2 * m))); [intros u; toR; unfold Rdiv; ring|].
  evar_last; [apply mono_derive|]. rewrite fact_step. pose proof (fact_pos (2 * m)). pose proof (lt_0_INR (S (2 * m)) ltac:(lia)). toR. field. lra.
Qed.
Lemma cT_derive m : forall t, is_derive (cT (S m)) t (- sT m t).
Proof.
  induction m as [|m IH]; intros t.
  - apply (is_derive_ext (fun _ : R => 1)); [intros u; cbn [cT]; change (2 * 0)%nat with 0%nat; cbn [pow fact]; change (INR 1) with 1; toR; field|]. cbn [sT]. rewrite Ropp_0. apply (is_derive_const 1 t).
  - apply (is_derive_ext (fun u => cT (S m) u + (-1) ^ S m * u ^ (2 * S m) / INR (fact (2 * S m)))); [reflexivity|].
    cbn [sT]. rewrite Ropp_plus_distr. apply (is_derive_plus (cT (S m)) (fun u => (-1) ^ S m * u ^ (2 * S m) / INR (fact (2 * S m)))); [apply IH|].
    replace (2 * S m)%nat with (S (2 * m + 1)) by lia.
    apply (is_derive_ext (fun u => (-1) ^ S m / INR (fact (S (2 * m + 1))) * u ^ S (2 * m + 1))); [intros u; toR; unfold Rdiv; ring|].
    evar_last; [apply mono_derive|]. rewrite fact_step. pose proof (fact_pos (2 * m + 1)). pose proof (lt_0_INR (S (2 * m + 1)) ltac:(lia)). rewrite <- (tech_pow_Rmult (-1) m). toR. field. lra.
Qed.
Lemma sT_0 m : sT m 0 = 0.
Proof. induction m as [|m IH]; cbn [sT]; [reflexivity|]. rewrite IH, pow_i by lia. unfold Rdiv. ring. Qed.
Lemma cT_0 m : cT (S m) 0 = 1.
Proof. induction m as [|m IH]; [cbn [cT]; change (2 * 0)%nat with 0%nat; cbn [pow fact]; change (INR 1) with 1; field|]. change (cT (S (S m)) 0) with (cT (S m) 0 + (-1) ^ S m * 0 ^ (2 * S m) / INR (fact (2 * S m))). rewrite IH, (pow_i (2 * S m)) by lia. unfold Rdiv. ring. Qed.
Lemma sin_cos_taylor m : (forall t, 0 <= t -> Rabs (cos t - cT m t) <= t ^ (2 * m) / INR (fact (2 * m))) /\
                         (forall t, 0 <= t -> Rabs (sin t - sT m t) <= t ^ (2 * m + 1) / INR (fact (2 * m + 1))).
Proof.
  assert (ST : forall m, (forall t, 0 <= t -> Rabs (cos t - cT m t) <= t ^ (2 * m) / INR (fact (2 * m))) ->
                 (forall t, 0 <= t -> Rabs (sin t - sT m t) <= t ^ (2 * m + 1) / INR (fact (2 * m + 1)))).
  { intros k H t Ht.
    pose proof (chain_step (fun u => sin u - sT k u) (fun u => cos u - cT k u) (/ INR (fact (2 * k))) (2 * k) (t + 1)) as K.
    replace (2 * k + 1)%nat with (S (2 * k)) by lia. rewrite <- (pow_step_bound _ (2 * k) t eq_refl).
    assert (D : forall u, is_derive (fun u => sin u - sT k u) u (cos u - cT k u)) by (intros u; apply (is_derive_minus sin (sT k)); [auto_derive; [trivial|ring]|apply sT_derive]).
    replace (sin t - sT k t) with (sin t - sT k t - (sin 0 - sT k 0)) by (rewrite sT_0, sin_0; ring).
    apply K; [intros; apply D| |intros u Hu; eapply Rle_trans; [apply H; lra|right; unfold Rdiv; ring]|lra].
    apply (ex_derive_continuous (fun u => sin u - sT k u)). eexists. apply D. }
  assert (C : forall t, 0 <= t -> Rabs (cos t - cT m t) <= t ^ (2 * m) / INR (fact (2 * m))).
  { induction m as [|m IH]; intros t Ht.
    - cbn [cT]. change (2 * 0)%nat with 0%nat. cbn [pow fact]. change (INR 1) with 1. rewrite Rminus_0_r. pose proof (COS_bound t). apply Rabs_le. lra.
    - specialize (ST m IH).
      pose proof (chain_step (fun u => cos u - cT (S m) u) (fun u => - sin u - - sT m u) (/ INR (fact (2 * m + 1))) (2 * m + 1) (t + 1)) as K.
      replace (2 * S m)%nat with (S (2 * m + 1)) by lia. rewrite <- (pow_step_bound _ (2 * m + 1) t eq_refl).
      assert (D : forall u, is_derive (fun u => cos u - cT (S m) u) u (- sin u - - sT m u)) by (intros u; apply (is_derive_minus cos (cT (S m))); [auto_derive; [trivial|ring]|apply cT_derive]).
      replace (cos t - cT (S m) t) with (cos t - cT (S m) t - (cos 0 - cT (S m) 0)) by (rewrite cT_0, cos_0; ring).
      apply K; [intros; apply D| |intros u Hu|lra].
      + apply (ex_derive_continuous (fun u => cos u - cT (S m) u)). eexists. apply D.
      + replace (- sin u - - sT m u) with (- (sin u - sT m u)) by ring. rewrite Rabs_Ropp. eapply Rle_trans; [apply ST; lra|right; unfold Rdiv; ring]. }
  split; [exact C|apply ST; exact C].
Qed.
