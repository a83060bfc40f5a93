(** * Complex polynomials with real coefficients; Taylor polynomial of exp; verified bounds.
    Nothing here mentions the code. *)
From Coq Require Import ZArith Reals List Bool Lra Lia Psatz.
From Coquelicot Require Import Coquelicot.
From Verif Require Import NumR Spec Cplx Clog_series Chain Polylog Ccalc CLi CLi_disc CLi_inv Unity Rest.
Import ListNotations.
Local Open Scope R_scope.

Fixpoint cpev (l : list R) (x : C) : C := match l with [] => RtoC 0 | c :: l' => Cplus (RtoC c) (Cmult x (cpev l' x)) end.
Definition zl (D : Z) (l : list Z) : list R := map (fun c => IZR c / IZR D) l.

(** antiderivative *)
Fixpoint ik (k : nat) (l : list R) : list R := match l with [] => [] | c :: l' => c / INR k :: ik (S k) l' end.
Definition il (a : R) (l : list R) : list R := a :: ik 1 l.
Lemma INR_C k : RtoC (INR (S k)) <> RtoC 0. Proof. apply RtoC_neq, not_0_INR. lia. Qed.
Lemma ik_der f t d : cder f t d -> forall l k,
  cder (fun s => Cmult (Cpow (f s) (S k)) (cpev (ik (S k) l) (f s))) t (Cmult d (Cmult (Cpow (f t) k) (cpev l (f t)))).
Proof.
  intros D. induction l as [|c l IH]; intros k.
  - cbn [ik cpev]. apply (cder_ext (fun _ => RtoC 0)); [intros; ring|]. eapply cder_eq; [|apply cder_const]. ring.
  - cbn [ik cpev]. apply (cder_ext (fun s => Cplus (Cmult (RtoC (c / INR (S k))) (Cpow (f s) (S k))) (Cmult (Cpow (f s) (S (S k))) (cpev (ik (S (S k)) l) (f s))))).
    + intros s. rewrite (Cpow_S (f s) (S k)). ring.
    + eapply cder_eq; [|apply cder_plus; [apply cder_scal, cder_pow; exact D|apply (IH (S k))]].
      rewrite (Cpow_S (f t) k). unfold Rdiv. rewrite RtoC_mult, RtoC_inv by (apply not_0_INR; lia). field. apply INR_C.
Qed.
Lemma il_der f t d a l : cder f t d -> cder (fun s => cpev (il a l) (f s)) t (Cmult d (cpev l (f t))).
Proof.
  intros D. unfold il. cbn [cpev]. apply (cder_ext (fun s => Cplus (RtoC a) (Cmult (Cpow (f s) 1) (cpev (ik 1 l) (f s))))); [intros; cbn [Cpow]; ring|].
  eapply cder_eq; [|apply (cder_plus (fun _ => RtoC a)); [apply cder_const|apply (ik_der f t d D l 0)]]. cbn [Cpow]. ring.
Qed.
(** derivative *)
Fixpoint dk (k : nat) (l : list R) : list R := match l with [] => [] | c :: l' => INR k * c :: dk (S k) l' end.
Definition dl (l : list R) : list R := match l with [] => [] | _ :: l' => dk 1 l' end.
Lemma ik_dk l : forall k, (1 <= k)%nat -> ik k (dk k l) = l.
Proof. induction l as [|c l IH]; intros k Hk; [reflexivity|]. cbn [dk ik]. rewrite IH by lia. f_equal. field. apply not_0_INR. lia. Qed.
Lemma dl_der f t d l : cder f t d -> cder (fun s => cpev l (f s)) t (Cmult d (cpev (dl l) (f t))).
Proof.
  intros D. destruct l as [|a l].
  - cbn [dl cpev]. eapply cder_eq; [|apply cder_const]. ring.
  - cbn [dl]. pose proof (il_der f t d a (dk 1 l) D) as H. unfold il in H. rewrite ik_dk in H by lia. exact H.
Qed.
Lemma cpev_cont f t l : ccont f t -> ccont (fun s => cpev l (f s)) t.
Proof. intros H. induction l as [|c l IH]; cbn [cpev]; [apply ccont_const|]. apply ccont_plus; [apply ccont_const|apply ccont_mult; assumption]. Qed.

(** integer lists *)
Fixpoint dkz (k : Z) (l : list Z) : list Z := match l with [] => [] | c :: l' => (k * c)%Z :: dkz (k + 1) l' end.
Definition dlz (l : list Z) : list Z := match l with [] => [] | _ :: l' => dkz 1 l' end.
Lemma dkz_ok D l : forall k, zl D (dkz (Z.of_nat k) l) = dk k (zl D l).
Proof.
  unfold zl. induction l as [|c l IH]; intros k; [reflexivity|]. cbn [dkz map dk]. rewrite mult_IZR, <- INR_IZR_INZ. f_equal; [unfold Rdiv; ring|].
  replace (Z.of_nat k + 1)%Z with (Z.of_nat (S k)) by lia. apply IH.
Qed.
Lemma dlz_ok D l : zl D (dlz l) = dl (zl D l).
Proof. destruct l as [|c l]; [reflexivity|]. cbn [dlz zl map dl]. apply (dkz_ok D l 1). Qed.

Fixpoint addz (a b : list Z) : list Z := match a, b with [], _ => b | _, [] => a | x :: a', y :: b' => (x + y)%Z :: addz a' b' end.
Definition sclz (c : Z) (l : list Z) : list Z := map (Z.mul c) l.
Definition subz (a b : list Z) : list Z := addz a (sclz (-1) b).
Fixpoint mulz (a b : list Z) : list Z := match a with [] => [] | x :: a' => addz (sclz x b) (0%Z :: mulz a' b) end.
Lemma IZR_C k : RtoC (IZR k) = RtoC (IZR k). Proof. reflexivity. Qed.
Definition cz (l : list Z) (x : C) : C := cpev (map IZR l) x.
Lemma cz_add a : forall b x, cz (addz a b) x = Cplus (cz a x) (cz b x).
Proof.
  unfold cz. induction a as [|u a IH]; intros [|v b] x; cbn [addz map cpev]; try ring. rewrite plus_IZR, RtoC_plus, IH. ring.
Qed.
Lemma cz_scl c l x : cz (sclz c l) x = Cmult (RtoC (IZR c)) (cz l x).
Proof. unfold cz, sclz. induction l as [|u l IH]; cbn [map cpev]; [ring|]. rewrite mult_IZR, RtoC_mult, IH. ring. Qed.
Lemma cz_sub a b x : cz (subz a b) x = Cminus (cz a x) (cz b x).
Proof. unfold subz. rewrite cz_add, cz_scl. replace (RtoC (IZR (-1))) with (Copp (RtoC 1)) by (rewrite <- RtoC_opp; reflexivity). ring. Qed.
Lemma cz_cons c l x : cz (c :: l) x = Cplus (RtoC (IZR c)) (Cmult x (cz l x)). Proof. reflexivity. Qed.
Lemma cz_mul a : forall b x, cz (mulz a b) x = Cmult (cz a x) (cz b x).
Proof.
  induction a as [|u a IH]; intros b x; cbn [mulz]; [unfold cz; cbn; ring|]. rewrite cz_add, cz_scl, !cz_cons, IH. ring.
Qed.
Lemma cz_zl D l x : (D <> 0)%Z -> cpev (zl D l) x = Cdiv (cz l x) (RtoC (IZR D)).
Proof.
  intros H. assert (N : RtoC (IZR D) <> RtoC 0) by (apply RtoC_neq, not_0_IZR, H).
  unfold cz, zl. induction l as [|u l IH]; cbn [map cpev]; [field; exact N|]. rewrite IH. unfold Rdiv. rewrite RtoC_mult, RtoC_inv by (apply not_0_IZR, H). field. exact N.
Qed.
(** upper bound of sum |l_k| (p/q)^k *)
Fixpoint ub (p q : Z) (l : list Z) : Z := match l with [] => 0%Z | c :: l' => (Z.abs c + (p * ub p q l' / q + 1))%Z end.
Lemma ub_ok p q l x : (0 < q)%Z -> (0 <= p)%Z -> Cmod x <= IZR p / IZR q -> Cmod (cz l x) <= IZR (ub p q l).
Proof.
  intros Hq Hp Hx. assert (Q : 0 < IZR q) by (apply (IZR_lt 0), Hq). pose proof (Cmod_ge_0 x) as X0.
  unfold cz. induction l as [|c l IH]; cbn [map cpev ub]; [rewrite Cmod_0; lra|].
  eapply Rle_trans; [apply Cmod_triangle|]. rewrite Cmod_mult, Cmod_R, !plus_IZR, abs_IZR. apply Rplus_le_compat_l.
  pose proof (Cmod_ge_0 (cpev (map IZR l) x)) as C0.
  apply Rle_trans with (IZR p / IZR q * IZR (ub p q l)); [apply Rmult_le_compat; assumption|].
  pose proof (Z.mod_pos_bound (p * ub p q l) q Hq) as B. pose proof (Z_div_mod_eq_full (p * ub p q l) q) as E.
  assert (L : (p * ub p q l <= q * (p * ub p q l / q + 1))%Z) by lia. apply IZR_le in L. rewrite !mult_IZR, plus_IZR in L.
  apply Rmult_le_reg_l with (IZR q); [exact Q|]. replace (IZR q * (IZR p / IZR q * IZR (ub p q l))) with (IZR p * IZR (ub p q l)) by (field; lra). exact L.
Qed.
(** leading zeros *)
Lemma cz_low k : forall l x, firstn k l = repeat 0%Z k -> cz l x = Cmult (Cpow x k) (cz (skipn k l) x).
Proof.
  induction k as [|k IH]; intros l x H; [cbn [Cpow skipn]; ring|]. destruct l as [|c l]; [discriminate|]. cbn [firstn repeat] in H. injection H as -> H.
  rewrite cz_cons. cbn [skipn Cpow]. rewrite (IH l x H). ring.
Qed.
Fixpoint zerosb (k : nat) (l : list Z) : bool := match k, l with O, _ => true | S k', c :: l' => (c =? 0)%Z && zerosb k' l' | _, [] => false end.
Lemma zerosb_ok k : forall l, zerosb k l = true -> firstn k l = repeat 0%Z k.
Proof. induction k as [|k IH]; intros [|c l] H; try reflexivity; try discriminate. cbn in H. apply andb_prop in H. destruct H as [H1 H2]. apply Z.eqb_eq in H1. subst c. cbn. f_equal. apply IH. exact H2. Qed.

(** ** exp *)
Lemma exp_mono a b : a <= b -> exp a <= exp b.
Proof. intros [H| ->]; [left; apply exp_increasing, H|right; reflexivity]. Qed.
Definition expterm (x : C) (k : nat) : C := Cmult (RtoC (inv_fact k)) (Cpow x k).
Lemma exp_rem M : forall x, Cmod (Cminus (Cexp x) (Csum (expterm x) M)) <= exp (Cmod x) * (inv_fact M * Cmod x ^ M).
Proof.
  induction M as [|M IH]; intros x.
  - cbn [Csum pow]. replace (Cminus (Cexp x) (RtoC 0)) with (Cexp x) by ring. rewrite Cmod_Cexp. unfold inv_fact. cbn [fact INR]. rewrite Rinv_1, !Rmult_1_r.
    pose proof (Cmod_fst x). pose proof (Rle_abs (fst x)). apply exp_mono. lra.
  - pose proof (Cmod_ge_0 x) as X0.
    set (f := fun t => Cminus (Cexp (Cmult (RtoC t) x)) (Csum (expterm (Cmult (RtoC t) x)) (S M))).
    assert (F0 : f 0 = RtoC 0).
    { unfold f. rewrite Cmult_0_l, Csum_shift, (Csum_0 (fun m => expterm (RtoC 0) (S m))).
      - unfold expterm, inv_fact, Cexp, RtoC. cbn. rewrite exp_0, cos_0, sin_0. unfold Cminus, Cplus, Copp, Cmult. cbn. f_equal; field.
      - intros k. unfold expterm. rewrite Cpow_S. ring. }
    replace (Cminus (Cexp x) (Csum (expterm x) (S M))) with (Cminus (f 1) (f 0)) by (rewrite F0; unfold f; rewrite !Cmult_1_l; ring).
    assert (DF : forall t, cder f t (Cmult x (Cminus (Cexp (Cmult (RtoC t) x)) (Csum (expterm (Cmult (RtoC t) x)) M)))).
    { intros t. unfold f. eapply cder_eq; [|apply cder_minus; [apply cder_Cexp, cder_ray|]].
      2:{ apply (cder_ext (fun s => Cplus (RtoC 1) (Csum (fun m => expterm (Cmult (RtoC s) x) (S m)) M))).
          - intros s. rewrite (Csum_shift _ M). f_equal. unfold expterm, inv_fact. cbn. rewrite Rinv_1. ring.
          - apply (cder_plus (fun _ => RtoC 1)); [apply cder_const|].
            apply (Csum_der (fun m s => expterm (Cmult (RtoC s) x) (S m)) (fun m => Cmult x (expterm (Cmult (RtoC t) x) m))).
            intros m _. unfold expterm. eapply cder_eq; [|apply cder_scal, cder_pow, cder_ray].
            replace (inv_fact m) with (inv_fact (S m) * INR (S m)); [rewrite !RtoC_mult; ring|].
            unfold inv_fact. rewrite fact_simpl, mult_INR. field. split; [apply INR_fact_neq_0|apply not_0_INR; lia]. }
      rewrite <- Csum_scal. ring. }
    set (A := exp (Cmod x) * Cmod x ^ S M).
    assert (IF : inv_fact (S M) * INR (S M) = inv_fact M).
    { unfold inv_fact. rewrite fact_simpl, mult_INR. field. split; [apply INR_fact_neq_0|apply not_0_INR; lia]. }
    replace (exp (Cmod x) * (inv_fact (S M) * Cmod x ^ S M)) with (A * inv_fact (S M) * 1 ^ S M - A * inv_fact (S M) * 0 ^ S M)
      by (unfold A; rewrite pow1; cbn [pow]; ring).
    assert (DG : forall t, is_derive (fun t => A * inv_fact (S M) * t ^ S M) t (A * inv_fact M * t ^ M)).
    { intros t. rewrite <- IF. generalize (inv_fact (S M)). intros g. evar_last.
      - apply (is_derive_scal (fun t => t ^ S M) t (A * g)). apply (is_derive_pow (fun t => t) (S M) t 1). apply (is_derive_id (K := R_AbsRing)).
      - change (Init.Nat.pred (S M)) with M. change (scal ?a ?b) with (a * b). toR. generalize (INR (S M)). intros i. ring. }
    apply (cmv f (fun t => Cmult x (Cminus (Cexp (Cmult (RtoC t) x)) (Csum (expterm (Cmult (RtoC t) x)) M))) (fun t => A * inv_fact (S M) * t ^ S M) (fun t => A * inv_fact M * t ^ M)).
    + lra.
    + intros; apply DF.
    + intros; apply DG.
    + intros; eapply cder_cont, DF.
    + intros t Ht. apply (ex_derive_continuous (fun t => A * inv_fact (S M) * t ^ S M)). eexists. apply DG.
    + intros t Ht. rewrite Cmod_mult. eapply Rle_trans; [apply Rmult_le_compat_l; [exact X0|apply IH]|].
      rewrite Cmod_scal, Rabs_pos_eq by lra. unfold A. rewrite Rpow_mult_distr.
      assert (E1 : exp (t * Cmod x) <= exp (Cmod x)) by (apply exp_mono; nra).
      assert (P1 : 0 <= t ^ M) by (apply pow_le; lra). assert (P2 : 0 <= Cmod x ^ M) by (apply pow_le; lra).
      assert (P3 : 0 <= inv_fact M) by (left; apply inv_fact_pos).
      assert (P4 : 0 <= Cmod x * (inv_fact M * (t ^ M * Cmod x ^ M))) by (repeat apply Rmult_le_pos; assumption).
      replace (exp (Cmod x) * Cmod x ^ S M * inv_fact M * t ^ M) with (exp (Cmod x) * (Cmod x * (inv_fact M * (t ^ M * Cmod x ^ M)))) by (cbn [pow]; ring).
      replace (Cmod x * (exp (t * Cmod x) * (inv_fact M * (t ^ M * Cmod x ^ M)))) with (exp (t * Cmod x) * (Cmod x * (inv_fact M * (t ^ M * Cmod x ^ M)))) by ring.
      apply Rmult_le_compat_r; assumption.
Qed.
