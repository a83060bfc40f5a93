(** * C47: the C and Fortran complex polylogarithms (exact arithmetic)

    [accurate], [axis_accurate] (Properties_U.v, Properties_V.v) compare with the principal branch of the polylogarithm. *)
From Coq Require Import ZArith Reals List Bool Lra Lia Psatz.
From Coquelicot Require Import Coquelicot.
From Interval Require Import Tactic.
From Verif Require Import Num NumR Spec Eval_R Consts Cplx Ccalc Polylog CLi CLi_disc CLi_inv Cpoly CLi_unity CLi_T CLi_region Rest Model_LiR Model_LiC Model_C Model_F Proof_Li2 CLi_code CLi_eval CLi_dev CLi_rest CLi_acc CLi_inst CLi2_acc CLi2_inst CLi_axis CLi_axis2 CLi_axis_inst CLi_c_eval CLi2_c_eval CLi_f_eval CLi2_f_eval Properties_J Properties_N Properties_P Properties_U Properties_V.
Import ListNotations.
Local Open Scope R_scope.

(** [same f g]: the two functions return the same number for every complex argument *)
Definition same (e : R) (f g : cpx (NumR e) -> cpx (NumR e)) : Prop := forall z : C, f (ofC e z) = g (ofC e z).
(** [agree d f g]: off the cut (1, infinity) they return the same number, on the cut they differ by at most [d] *)
Definition agree (d e : R) (f g : cpx (NumR e) -> cpx (NumR e)) : Prop := forall z : C, exists v w : C,
  f (ofC e z) = ofC e v /\ g (ofC e z) = ofC e w /\ (snd z <> 0 \/ fst z <= 1 -> v = w) /\ Cmod (Cminus v w) <= d.

(** ** the functions that delegate to the real ones *)
Lemma hornerl_rev (N : num) x : forall c : list N, hornerl N x c = fold_left (fun p ci => add N (mul N p x) ci) (rev c) (lit N 0 0).
Proof. induction c as [|a c IH]; [reflexivity|]. cbn [hornerl rev]. rewrite fold_left_app, IH. reflexivity. Qed.
Lemma hornerl_R e (z : NumR e) (c : list (NumR e)) t u l : rev c = Some t :: u :: l -> hornerl (NumR e) z c = horner (NumR e) z c.
Proof.
  intros E. rewrite hornerl_rev. unfold horner. rewrite E. cbn [fold_left]. f_equal. destruct z as [z|]; [|destruct u; reflexivity].
  apply (f_equal (fun y => add (NumR e) (mul (NumR e) y (Some z)) u)). rewrite lit_int. cbn. f_equal. ring.
Qed.
Lemma k1_same e (P Q : list (NumR e)) tp up lp tq uq lq : rev P = Some tp :: up :: lp -> rev Q = Some tq :: uq :: lq -> forall y r s, k1_c (NumR e) P Q y r s = k1_h (NumR e) P Q y r s.
Proof. intros A B y r s. unfold k1_c, k1_h. cbv zeta. rewrite (hornerl_R e _ P _ _ _ A), (hornerl_R e _ Q _ _ _ B). reflexivity. Qed.
Lemma shape_extR e pi (k k' : NumR e -> NumR e -> NumR e -> NumR e) x : (forall y r s, k y r s = k' y r s) -> Li2_shape (NumR e) pi k x = Li2_shape (NumR e) pi k' x.
Proof.
  intros H. unfold Li2_shape. cbv zeta. repeat match goal with |- (if ?b then _ else _) = _ => destruct b; try apply H; try reflexivity end.
  match goal with |- context [if ?b then _ else _] => destruct b; apply H end.
Qed.
Lemma li2l_exact e x : c_li2_l (NumR e) x = Li2_l (NumR e) x.
Proof. rewrite c_li2_l_shape, Li2_l_shape. apply shape_extR. destruct (top_l_P (NumR e)) as (u & l & A). destruct (top_l_Q (NumR e)) as (u' & l' & B). exact (k1_same e _ _ _ _ _ _ _ _ A B). Qed.
Lemma li2q_exact e x : c_li2_q (NumR e) x = Li2_q (NumR e) x.
Proof. rewrite c_li2_q_shape, Li2_q_shape. apply shape_extR. destruct (top_q_P (NumR e)) as (u & l & A). destruct (top_q_Q (NumR e)) as (u' & l' & B). exact (k1_same e _ _ _ _ _ _ _ _ A B). Qed.
(** on the real axis, over any arithmetic: the same expressions *)
Section Axis.
Variable N : num.
Variable z : cpx N.
Hypothesis E : eqb N (snd z) (lit N 0 0) = true.
Lemma ax2f : c_cli2_f N z = cLi2_f N z. Proof. unfold c_cli2_f, cLi2_f. cbv zeta. rewrite E. destruct (leb N (fst z) (lit N 1 0)); reflexivity. Qed.
Lemma ax2d : c_cli2_d N z = cLi2_d N z. Proof. unfold c_cli2_d, cLi2_d. cbv zeta. rewrite E. destruct (leb N (fst z) (lit N 1 0)); reflexivity. Qed.
Lemma ax2l : c_li2_l N (fst z) = Li2_l N (fst z) -> c_cli2_l N z = cLi2_l N z. Proof. intros H. unfold c_cli2_l, cLi2_l. cbv zeta. rewrite E, H. destruct (leb N (fst z) (lit N 1 0)); reflexivity. Qed.
Lemma ax2q : c_li2_q N (fst z) = Li2_q N (fst z) -> c_cli2_q N z = cLi2_q N z. Proof. intros H. unfold c_cli2_q, cLi2_q. cbv zeta. rewrite E, H. destruct (leb N (fst z) (lit N 1 0)); reflexivity. Qed.
Lemma ax3d : c_cli3_d N z = cLi3_d N z. Proof. unfold c_cli3_d, cLi3_d. cbv zeta. rewrite E. destruct (leb N (fst z) (lit N 1 0)); reflexivity. Qed.
Lemma ax4d : c_cli4_d N z = cLi4_d N z. Proof. unfold c_cli4_d, cLi4_d. cbv zeta. rewrite E. destruct (leb N (fst z) (lit N 1 0)); reflexivity. Qed.
End Axis.
Lemma real_test e (z : C) : snd z = 0 -> eqb (NumR e) (snd (ofC e z)) (lit (NumR e) 0 0) = true.
Proof. intros H. rewrite lit_int. unfold ofC. cbn [fst snd eqb NumR ocmp]. apply Reqb_true, H. Qed.
Ltac del ev evc ax := intros z; destruct (Req_EM_T (snd z) 0) as [H|H]; [apply ax; [apply real_test, H|..]|rewrite ev, evc by (exact H || (left; left; exact H)); reflexivity].
Theorem C47_c_Li2_float e : same e (c_cli2_f (NumR e)) (cLi2_f (NumR e)). Proof. del ev_c_cli2_f ev_cLi2_f ax2f. Qed.
Theorem C47_c_Li2_double e : same e (c_cli2_d (NumR e)) (cLi2_d (NumR e)). Proof. del ev_c_cli2_d ev_cLi2_d ax2d. Qed.
Theorem C47_c_Li2_long_double e : same e (c_cli2_l (NumR e)) (cLi2_l (NumR e)). Proof. del ev_c_cli2_l ev_cLi2_l ax2l. apply li2l_exact. Qed.
Theorem C47_c_Li2_quadruple e : same e (c_cli2_q (NumR e)) (cLi2_q (NumR e)). Proof. del ev_c_cli2_q ev_cLi2_q ax2q. apply li2q_exact. Qed.
Theorem C47_c_Li3_double e : same e (c_cli3_d (NumR e)) (cLi3_d (NumR e)). Proof. del ev_c_cli3_d ev_cLi3_d ax3d. Qed.
Theorem C47_c_Li4_double e : same e (c_cli4_d (NumR e)) (cLi4_d (NumR e)). Proof. del ev_c_cli4_d ev_cLi4_d ax4d. Qed.

(** ** the functions that use the series on the real axis too *)
Lemma Lcl_near n w D : (3 <= n <= 6)%nat -> Cmod (Cminus (Lcl n (Cplus (Clog (Copp w)) D)) (Lc n w)) <= / 2 * Cmod D.
Proof.
  intros H. assert (C3 : n = 3%nat \/ n = 4%nat \/ n = 5%nat \/ n = 6%nat) by lia. pose proof (Cmod_ge_0 D) as D0.
  assert (K : forall (k : R) x l, Cmod (Cminus (Cmult (RtoC k) (Cminus x (Cplus l D))) (Cmult (RtoC k) (Cminus x l))) = Rabs k * Cmod D).
  { intros k x l. replace (Cminus (Cmult (RtoC k) (Cminus x (Cplus l D))) (Cmult (RtoC k) (Cminus x l))) with (Copp (Cmult (RtoC k) D)) by ring. rewrite Cmod_opp, Cmod_mult, Cmod_R. reflexivity. }
  destruct C3 as [->|[->|[->| ->]]]; cbn [Lcl Lc].
  - generalize (Clog (Copp w)). intros l. replace (Cminus (Cmult (RtoC (rq (25, 10 ^ 2)%Z)) (Cminus (RtoC (rq (3, 1)%Z)) (Cmult (RtoC (rq (2, 1)%Z)) (Cplus l D)))) (Cmult (RtoC (rq (25, 10 ^ 2)%Z)) (Cminus (RtoC (rq (3, 1)%Z)) (Cmult (RtoC (rq (2, 1)%Z)) l)))) with (Copp (Cmult (RtoC (rq (25, 10 ^ 2)%Z * rq (2, 1)%Z)) D)) by (rewrite RtoC_mult; ring).
    rewrite Cmod_opp, Cmod_mult, Cmod_R. right. f_equal. unfold rq. cbn [fst snd]. change (10 ^ 2)%Z with 100%Z. rewrite Rabs_pos_eq by lra. lra.
  - rewrite K, Rabs_pos_eq by lra. apply Rmult_le_compat_r; lra.
  - rewrite K, Rabs_pos_eq by lra. apply Rmult_le_compat_r; lra.
  - rewrite K, Rabs_pos_eq by lra. apply Rmult_le_compat_r; lra.
Qed.
Lemma agree_gen n (ord : C -> Prop) Ul Tl p z2 sg pl d e f g : (3 <= n <= 6)%nat -> / 2 * Rabs (pl - PI) <= d ->
  (forall z, snd z <> 0 -> ord z) -> (forall z, snd z = 0 -> 1 < fst z -> ord z) ->
  (forall z, ord z -> cokx z -> f (ofC e z) = ofC e (cval n Ul Tl p z2 sg z)) -> (forall z, ord z -> g (ofC e z) = ofC e (cval n Ul Tl p z2 sg z)) ->
  (forall z, snd z = 0 -> 1 < fst z -> Cmod (Clog z) * Cmod (Clog z) < 1 -> f (ofC e z) = ofC e (Cplus (cpev (map rq Ul) (Clog z)) (Cmult (Cpow (Clog z) (n - 1)) (Lcl n (Cplus (Clog (Copp (Clog z))) (0, pl - PI)))))) ->
  (forall z, snd z = 0 -> fst z <= 1 -> (ord z /\ fst z < 1) \/ exists v, f (ofC e z) = ofC e v /\ g (ofC e z) = ofC e v) -> agree d e f g.
Proof.
  intros Hn Hd O1 O2 EF EG EX SP z. assert (d0 : 0 <= d) by (pose proof (Rabs_pos (pl - PI)); lra).
  assert (SAME : forall v, f (ofC e z) = ofC e v -> g (ofC e z) = ofC e v -> exists v w : C, f (ofC e z) = ofC e v /\ g (ofC e z) = ofC e w /\ (snd z <> 0 \/ fst z <= 1 -> v = w) /\ Cmod (Cminus v w) <= d).
  { intros v F G. exists v, v. repeat split; auto. replace (Cminus v v) with (RtoC 0) by ring. rewrite Cmod_0. exact d0. }
  destruct (Req_EM_T (snd z) 0) as [S0|S0]; [|apply (SAME (cval n Ul Tl p z2 sg z)); [apply EF; [apply O1, S0|left; left; exact S0]|apply EG, O1, S0]].
  destruct (Rle_dec (fst z) 1) as [L1|L1].
  { destruct (SP z S0 L1) as [[O L]|(v & F & G)]; [|exact (SAME v F G)]. apply (SAME (cval n Ul Tl p z2 sg z)); [apply EF; [exact O|left; right; split; assumption]|apply EG, O]. }
  apply Rnot_le_lt in L1. destruct (Rlt_dec (Cmod (Clog z) * Cmod (Clog z)) 1) as [U1|U1].
  2: { apply (SAME (cval n Ul Tl p z2 sg z)); [apply EF; [apply O2; assumption|right; repeat split; assumption]|apply EG, O2; assumption]. }
  eexists. exists (cval n Ul Tl p z2 sg z). split; [apply EX; assumption|]. split; [apply EG, O2; assumption|]. split; [intros [Q|Q]; [contradiction|lra]|].
  unfold cval. destruct (Rlt_dec (Cmod (Clog z) * Cmod (Clog z)) 1) as [_|Q]; [|contradiction]. rewrite Lm_Lc by exact Hn. set (w := Clog z) in *. set (D := (0, pl - PI) : C).
  replace (Cminus (Cplus (cpev (map rq Ul) w) (Cmult (Cpow w (n - 1)) (Lcl n (Cplus (Clog (Copp w)) D)))) (Cplus (cpev (map rq Ul) w) (Cmult (Cpow w (n - 1)) (Lc n w)))) with (Cmult (Cpow w (n - 1)) (Cminus (Lcl n (Cplus (Clog (Copp w)) D)) (Lc n w))) by ring.
  rewrite Cmod_mult, Cpow_mod. pose proof (Cmod_ge_0 w). assert (W1 : Cmod w <= 1) by nra. assert (P1 : Cmod w ^ (n - 1) <= 1) by (rewrite <- (pow1 (n - 1)); apply pow_incr; lra). assert (P0 : 0 <= Cmod w ^ (n - 1)) by (apply pow_le; lra).
  pose proof (Lcl_near n w D Hn) as K. pose proof (Cmod_ge_0 (Cminus (Lcl n (Cplus (Clog (Copp w)) D)) (Lc n w))) as K0.
  assert (DD0 : Cmod D = Rabs (pl - PI)). { unfold D, Cmod. cbn [fst snd]. rewrite <- sqrt_Rsqr_abs. f_equal. unfold Rsqr. ring. }
  rewrite DD0 in K. apply Rle_trans with (1 * Cmod (Cminus (Lcl n (Cplus (Clog (Copp w)) D)) (Lc n w))); [apply Rmult_le_compat_r; assumption|]. lra.
Qed.
Lemma real_pt (z : C) : snd z = 0 -> z = RtoC (fst z). Proof. destruct z as [a b]. cbn. intros ->. reflexivity. Qed.
Ltac spec0 := let E := fresh in intros z S0 L1; pose proof (real_pt z S0) as E; generalize dependent (fst z); intros x L1 E; subst z.
Theorem C47_c_Li3_long_double e : agree (3 / 10 ^ 36) e (c_cli3_l (NumR e)) (cLi3_l (NumR e)).
Proof.
  eapply (agree_gen 3 ordinary3 (T_cLi3_l_hd ++ spread T_cLi3_l_cs) T_cLi3_l_bf (rq T_cLi3_l_pi) _ _ (rq (314159265358979323846264338327950288, 10 ^ 35)%Z)); [lia|unfold rq; cbn [fst snd]; interval with (i_prec 200)|intros z H; left; exact H|intros z H K; right; repeat split; lra|exact (ev_c_cli3_l e)|exact (ev_cLi3_l e)|exact (evx_c_cli3_l e)|].
  intros z S0 L1. rewrite (real_pt z S0). unfold RtoC at 1. cbn [fst]. set (x := fst z) in *. clearbody x.
  destruct (Req_dec x 0) as [->|]; [right; refine (ex_intro _ _ (conj _ (at0_cLi3_l e))); unfold c_cli3_l; cbv zeta; etransitivity; [apply pick_a; tt|]; reflexivity|].
  destruct (Req_dec x 1) as [->|]; [right; refine (ex_intro _ _ (conj _ (at1_cLi3_l e))); unfold c_cli3_l; cbv zeta; etransitivity; [apply pick_b; tt|]; val|].
  destruct (Req_dec x (-1)) as [->|]; [right; refine (ex_intro _ _ (conj _ (atm1_cLi3_l e))); unfold c_cli3_l; cbv zeta; etransitivity; [apply pick_c; tt|]; val|].
  destruct (Req_dec x (/ 2)) as [->|]; [right; refine (ex_intro _ _ (conj _ (ath_cLi3_l e))); unfold c_cli3_l; cbv zeta; etransitivity; [apply pick_d; tt|]; val|].
  left. split; [right; unfold RtoC; cbn [fst]; repeat split; assumption|unfold RtoC; cbn [fst]; lra].
Qed.
Theorem C47_c_Li3_quadruple e : agree (3 / 10 ^ 36) e (c_cli3_q (NumR e)) (cLi3_q (NumR e)).
Proof.
  eapply (agree_gen 3 ordinary3 (T_cLi3_q_hd ++ spread T_cLi3_q_cs) T_cLi3_q_bf (rq T_cLi3_q_pi) _ _ (rq (314159265358979323846264338327950288, 10 ^ 35)%Z)); [lia|unfold rq; cbn [fst snd]; interval with (i_prec 200)|intros z H; left; exact H|intros z H K; right; repeat split; lra|exact (ev_c_cli3_q e)|exact (ev_cLi3_q e)|exact (evx_c_cli3_q e)|].
  intros z S0 L1. rewrite (real_pt z S0). unfold RtoC at 1. cbn [fst]. set (x := fst z) in *. clearbody x.
  destruct (Req_dec x 0) as [->|]; [right; refine (ex_intro _ _ (conj _ (at0_cLi3_q e))); unfold c_cli3_q; cbv zeta; etransitivity; [apply pick_a; tt|]; reflexivity|].
  destruct (Req_dec x 1) as [->|]; [right; refine (ex_intro _ _ (conj _ (at1_cLi3_q e))); unfold c_cli3_q; cbv zeta; etransitivity; [apply pick_b; tt|]; val|].
  destruct (Req_dec x (-1)) as [->|]; [right; refine (ex_intro _ _ (conj _ (atm1_cLi3_q e))); unfold c_cli3_q; cbv zeta; etransitivity; [apply pick_c; tt|]; val|].
  destruct (Req_dec x (/ 2)) as [->|]; [right; refine (ex_intro _ _ (conj _ (ath_cLi3_q e))); unfold c_cli3_q; cbv zeta; etransitivity; [apply pick_d; tt|]; val|].
  left. split; [right; unfold RtoC; cbn [fst]; repeat split; assumption|unfold RtoC; cbn [fst]; lra].
Qed.
Theorem C47_c_Li4_long_double e : agree (3 / 10 ^ 36) e (c_cli4_l (NumR e)) (cLi4_l (NumR e)).
Proof.
  eapply (agree_gen 4 ordinary (T_cLi4_l_hd ++ spread T_cLi4_l_cs) T_cLi4_l_bf (rq T_cLi4_l_pi) _ _ (rq (314159265358979323846264338327950288, 10 ^ 35)%Z)); [lia|unfold rq; cbn [fst snd]; interval with (i_prec 200)|intros z H; left; exact H|intros z H K; right; repeat split; lra|exact (ev_c_cli4_l e)|exact (ev_cLi4_l e)|exact (evx_c_cli4_l e)|].
  intros z S0 L1. rewrite (real_pt z S0). unfold RtoC at 1. cbn [fst]. set (x := fst z) in *. clearbody x.
  destruct (Req_dec x 0) as [->|]; [right; refine (ex_intro _ _ (conj _ (at0_cLi4_l e))); unfold c_cli4_l; cbv zeta; etransitivity; [apply pick_a; tt|]; reflexivity|].
  destruct (Req_dec x 1) as [->|]; [right; refine (ex_intro _ _ (conj _ (at1_cLi4_l e))); unfold c_cli4_l; cbv zeta; etransitivity; [apply pick_b; tt|]; val|].
  destruct (Req_dec x (-1)) as [->|]; [right; refine (ex_intro _ _ (conj _ (atm1_cLi4_l e))); unfold c_cli4_l; cbv zeta; etransitivity; [apply pick_c; tt|]; val|].
  left. split; [right; unfold RtoC; cbn [fst]; repeat split; assumption|unfold RtoC; cbn [fst]; lra].
Qed.
Theorem C47_c_Li4_quadruple e : agree (3 / 10 ^ 36) e (c_cli4_q (NumR e)) (cLi4_q (NumR e)).
Proof.
  eapply (agree_gen 4 ordinary (T_cLi4_q_hd ++ spread T_cLi4_q_cs) T_cLi4_q_bf (rq T_cLi4_q_pi) _ _ (rq (314159265358979323846264338327950288, 10 ^ 35)%Z)); [lia|unfold rq; cbn [fst snd]; interval with (i_prec 200)|intros z H; left; exact H|intros z H K; right; repeat split; lra|exact (ev_c_cli4_q e)|exact (ev_cLi4_q e)|exact (evx_c_cli4_q e)|].
  intros z S0 L1. rewrite (real_pt z S0). unfold RtoC at 1. cbn [fst]. set (x := fst z) in *. clearbody x.
  destruct (Req_dec x 0) as [->|]; [right; refine (ex_intro _ _ (conj _ (at0_cLi4_q e))); unfold c_cli4_q; cbv zeta; etransitivity; [apply pick_a; tt|]; reflexivity|].
  destruct (Req_dec x 1) as [->|]; [right; refine (ex_intro _ _ (conj _ (at1_cLi4_q e))); unfold c_cli4_q; cbv zeta; etransitivity; [apply pick_b; tt|]; val|].
  destruct (Req_dec x (-1)) as [->|]; [right; refine (ex_intro _ _ (conj _ (atm1_cLi4_q e))); unfold c_cli4_q; cbv zeta; etransitivity; [apply pick_c; tt|]; val|].
  left. split; [right; unfold RtoC; cbn [fst]; repeat split; assumption|unfold RtoC; cbn [fst]; lra].
Qed.
Theorem C47_c_Li5_double e : agree (2 / 10 ^ 17) e (c_cli5_d (NumR e)) (cLi5_d (NumR e)).
Proof.
  eapply (agree_gen 5 ordinary (T_cLi5_d_hd ++ spread T_cLi5_d_cs) T_cLi5_d_bf (rq T_cLi5_d_pi) _ _ (rq (31415926535897932, 10 ^ 16)%Z)); [lia|unfold rq; cbn [fst snd]; interval with (i_prec 200)|intros z H; left; exact H|intros z H K; right; repeat split; lra|exact (ev_c_cli5_d e)|exact (ev_cLi5_d e)|exact (evx_c_cli5_d e)|].
  intros z S0 L1. rewrite (real_pt z S0). unfold RtoC at 1. cbn [fst]. set (x := fst z) in *. clearbody x.
  destruct (Req_dec x 0) as [->|]; [right; refine (ex_intro _ _ (conj _ (at0_cLi5_d e))); unfold c_cli5_d; cbv zeta; etransitivity; [apply pick_a; tt|]; reflexivity|].
  destruct (Req_dec x 1) as [->|]; [right; refine (ex_intro _ _ (conj _ (at1_cLi5_d e))); unfold c_cli5_d; cbv zeta; etransitivity; [apply pick_b; tt|]; val|].
  destruct (Req_dec x (-1)) as [->|]; [right; refine (ex_intro _ _ (conj _ (atm1_cLi5_d e))); unfold c_cli5_d; cbv zeta; etransitivity; [apply pick_c; tt|]; val|].
  left. split; [right; unfold RtoC; cbn [fst]; repeat split; assumption|unfold RtoC; cbn [fst]; lra].
Qed.
Theorem C47_c_Li5_long_double e : agree (3 / 10 ^ 36) e (c_cli5_l (NumR e)) (cLi5_l (NumR e)).
Proof.
  eapply (agree_gen 5 ordinary (T_cLi5_l_hd ++ spread T_cLi5_l_cs) T_cLi5_l_bf (rq T_cLi5_l_pi) _ _ (rq (314159265358979323846264338327950288, 10 ^ 35)%Z)); [lia|unfold rq; cbn [fst snd]; interval with (i_prec 200)|intros z H; left; exact H|intros z H K; right; repeat split; lra|exact (ev_c_cli5_l e)|exact (ev_cLi5_l e)|exact (evx_c_cli5_l e)|].
  intros z S0 L1. rewrite (real_pt z S0). unfold RtoC at 1. cbn [fst]. set (x := fst z) in *. clearbody x.
  destruct (Req_dec x 0) as [->|]; [right; refine (ex_intro _ _ (conj _ (at0_cLi5_l e))); unfold c_cli5_l; cbv zeta; etransitivity; [apply pick_a; tt|]; reflexivity|].
  destruct (Req_dec x 1) as [->|]; [right; refine (ex_intro _ _ (conj _ (at1_cLi5_l e))); unfold c_cli5_l; cbv zeta; etransitivity; [apply pick_b; tt|]; val|].
  destruct (Req_dec x (-1)) as [->|]; [right; refine (ex_intro _ _ (conj _ (atm1_cLi5_l e))); unfold c_cli5_l; cbv zeta; etransitivity; [apply pick_c; tt|]; val|].
  left. split; [right; unfold RtoC; cbn [fst]; repeat split; assumption|unfold RtoC; cbn [fst]; lra].
Qed.
Theorem C47_c_Li5_quadruple e : agree (3 / 10 ^ 36) e (c_cli5_q (NumR e)) (cLi5_q (NumR e)).
Proof.
  eapply (agree_gen 5 ordinary (T_cLi5_q_hd ++ spread T_cLi5_q_cs) T_cLi5_q_bf (rq T_cLi5_q_pi) _ _ (rq (314159265358979323846264338327950288, 10 ^ 35)%Z)); [lia|unfold rq; cbn [fst snd]; interval with (i_prec 200)|intros z H; left; exact H|intros z H K; right; repeat split; lra|exact (ev_c_cli5_q e)|exact (ev_cLi5_q e)|exact (evx_c_cli5_q e)|].
  intros z S0 L1. rewrite (real_pt z S0). unfold RtoC at 1. cbn [fst]. set (x := fst z) in *. clearbody x.
  destruct (Req_dec x 0) as [->|]; [right; refine (ex_intro _ _ (conj _ (at0_cLi5_q e))); unfold c_cli5_q; cbv zeta; etransitivity; [apply pick_a; tt|]; reflexivity|].
  destruct (Req_dec x 1) as [->|]; [right; refine (ex_intro _ _ (conj _ (at1_cLi5_q e))); unfold c_cli5_q; cbv zeta; etransitivity; [apply pick_b; tt|]; val|].
  destruct (Req_dec x (-1)) as [->|]; [right; refine (ex_intro _ _ (conj _ (atm1_cLi5_q e))); unfold c_cli5_q; cbv zeta; etransitivity; [apply pick_c; tt|]; val|].
  left. split; [right; unfold RtoC; cbn [fst]; repeat split; assumption|unfold RtoC; cbn [fst]; lra].
Qed.
Theorem C47_c_Li6_double e : agree (2 / 10 ^ 17) e (c_cli6_d (NumR e)) (cLi6_d (NumR e)).
Proof.
  eapply (agree_gen 6 ordinary (T_cLi6_d_hd ++ spread T_cLi6_d_cs) T_cLi6_d_bf (rq T_cLi6_d_pi) _ _ (rq (31415926535897932, 10 ^ 16)%Z)); [lia|unfold rq; cbn [fst snd]; interval with (i_prec 200)|intros z H; left; exact H|intros z H K; right; repeat split; lra|exact (ev_c_cli6_d e)|exact (ev_cLi6_d e)|exact (evx_c_cli6_d e)|].
  intros z S0 L1. rewrite (real_pt z S0). unfold RtoC at 1. cbn [fst]. set (x := fst z) in *. clearbody x.
  destruct (Req_dec x 0) as [->|]; [right; refine (ex_intro _ _ (conj _ (at0_cLi6_d e))); unfold c_cli6_d; cbv zeta; etransitivity; [apply pick_a; tt|]; reflexivity|].
  destruct (Req_dec x 1) as [->|]; [right; refine (ex_intro _ _ (conj _ (at1_cLi6_d e))); unfold c_cli6_d; cbv zeta; etransitivity; [apply pick_b; tt|]; val|].
  destruct (Req_dec x (-1)) as [->|]; [right; refine (ex_intro _ _ (conj _ (atm1_cLi6_d e))); unfold c_cli6_d; cbv zeta; etransitivity; [apply pick_c; tt|]; val|].
  left. split; [right; unfold RtoC; cbn [fst]; repeat split; assumption|unfold RtoC; cbn [fst]; lra].
Qed.
Theorem C47_c_Li6_long_double e : agree (3 / 10 ^ 36) e (c_cli6_l (NumR e)) (cLi6_l (NumR e)).
Proof.
  eapply (agree_gen 6 ordinary (T_cLi6_l_hd ++ spread T_cLi6_l_cs) T_cLi6_l_bf (rq T_cLi6_l_pi) _ _ (rq (314159265358979323846264338327950288, 10 ^ 35)%Z)); [lia|unfold rq; cbn [fst snd]; interval with (i_prec 200)|intros z H; left; exact H|intros z H K; right; repeat split; lra|exact (ev_c_cli6_l e)|exact (ev_cLi6_l e)|exact (evx_c_cli6_l e)|].
  intros z S0 L1. rewrite (real_pt z S0). unfold RtoC at 1. cbn [fst]. set (x := fst z) in *. clearbody x.
  destruct (Req_dec x 0) as [->|]; [right; refine (ex_intro _ _ (conj _ (at0_cLi6_l e))); unfold c_cli6_l; cbv zeta; etransitivity; [apply pick_a; tt|]; reflexivity|].
  destruct (Req_dec x 1) as [->|]; [right; refine (ex_intro _ _ (conj _ (at1_cLi6_l e))); unfold c_cli6_l; cbv zeta; etransitivity; [apply pick_b; tt|]; val|].
  destruct (Req_dec x (-1)) as [->|]; [right; refine (ex_intro _ _ (conj _ (atm1_cLi6_l e))); unfold c_cli6_l; cbv zeta; etransitivity; [apply pick_c; tt|]; val|].
  left. split; [right; unfold RtoC; cbn [fst]; repeat split; assumption|unfold RtoC; cbn [fst]; lra].
Qed.
Theorem C47_c_Li6_quadruple e : agree (3 / 10 ^ 36) e (c_cli6_q (NumR e)) (cLi6_q (NumR e)).
Proof.
  eapply (agree_gen 6 ordinary (T_cLi6_q_hd ++ spread T_cLi6_q_cs) T_cLi6_q_bf (rq T_cLi6_q_pi) _ _ (rq (314159265358979323846264338327950288, 10 ^ 35)%Z)); [lia|unfold rq; cbn [fst snd]; interval with (i_prec 200)|intros z H; left; exact H|intros z H K; right; repeat split; lra|exact (ev_c_cli6_q e)|exact (ev_cLi6_q e)|exact (evx_c_cli6_q e)|].
  intros z S0 L1. rewrite (real_pt z S0). unfold RtoC at 1. cbn [fst]. set (x := fst z) in *. clearbody x.
  destruct (Req_dec x 0) as [->|]; [right; refine (ex_intro _ _ (conj _ (at0_cLi6_q e))); unfold c_cli6_q; cbv zeta; etransitivity; [apply pick_a; tt|]; reflexivity|].
  destruct (Req_dec x 1) as [->|]; [right; refine (ex_intro _ _ (conj _ (at1_cLi6_q e))); unfold c_cli6_q; cbv zeta; etransitivity; [apply pick_b; tt|]; val|].
  destruct (Req_dec x (-1)) as [->|]; [right; refine (ex_intro _ _ (conj _ (atm1_cLi6_q e))); unfold c_cli6_q; cbv zeta; etransitivity; [apply pick_c; tt|]; val|].
  left. split; [right; unfold RtoC; cbn [fst]; repeat split; assumption|unfold RtoC; cbn [fst]; lra].
Qed.

(** ** accuracy of the C functions against the principal branch *)
Lemma accurate_agree n eps d e f g : agree d e f g -> accurate n eps e g -> accurate n eps e f.
Proof.
  intros A H z Hz. destruct (A z) as (v & w & F & G & E & _). destruct (H z Hz) as (w' & G' & K). exists v. split; [exact F|]. rewrite G' in G. apply ofC_injf in G. rewrite (E (or_introl Hz)), <- G. exact K.
Qed.
Lemma accurate_same n eps e f g : same e f g -> accurate n eps e g -> accurate n eps e f.
Proof. intros A H z Hz. rewrite (A z). apply H, Hz. Qed.
Lemma axis_agree n eps d e f g : agree d e f g -> axis_accurate n eps e g -> axis_accurate n (eps + d) e f.
Proof.
  intros A H x. destruct (A (x, 0)) as (v & w & F & G & E & D). destruct (H x) as (w' & G' & K1 & K2). rewrite G' in G. apply ofC_injf in G. subst w'. exists v. split; [exact F|].
  assert (D0 : 0 <= d) by (eapply Rle_trans; [apply Cmod_ge_0|exact D]). split; intros HX.
  - rewrite E by (right; cbn [fst]; pose proof (Rle_abs x); lra). eapply Rle_trans; [exact (K1 HX)|]. apply Rmult_le_compat_r; [apply Rabs_pos|lra].
  - specialize (K2 HX). replace (Cminus v (ReLi n x, ImLi n x)) with (Cplus (Cminus w (ReLi n x, ImLi n x)) (Cminus v w)) by ring.
    eapply Rle_trans; [apply Cmod_triangle|]. rewrite Rmult_plus_distr_r. apply Rplus_le_compat; [exact K2|]. apply Rle_trans with (d * 1); [lra|]. apply Rmult_le_compat_l; [exact D0|].
    apply pow_R1_Rle. pose proof (Cmod_ge_0 (Clog (Copp (x, 0)))). lra.
Qed.
Theorem C47_c_accuracy :
  accurate 2 (5 / 10 ^ 7) eps_f (c_cli2_f (NumR eps_f)) /\
  accurate 2 (27 / 10 ^ 17) eps_d (c_cli2_d (NumR eps_d)) /\ accurate 2 (5 / 10 ^ 18) eps_l (c_cli2_l (NumR eps_l)) /\ accurate 2 (3 / 10 ^ 35) eps_q (c_cli2_q (NumR eps_q)) /\
  accurate 3 (11 / 10 ^ 15) eps_d (c_cli3_d (NumR eps_d)) /\ accurate 3 (9 / 10 ^ 18) eps_l (c_cli3_l (NumR eps_l)) /\ accurate 3 (1 / 10 ^ 34) eps_q (c_cli3_q (NumR eps_q)) /\
  accurate 4 (8 / 10 ^ 15) eps_d (c_cli4_d (NumR eps_d)) /\ accurate 4 (45 / 10 ^ 19) eps_l (c_cli4_l (NumR eps_l)) /\ accurate 4 (1 / 10 ^ 34) eps_q (c_cli4_q (NumR eps_q)) /\
  accurate 5 (1 / 10 ^ 15) eps_d (c_cli5_d (NumR eps_d)) /\ accurate 5 (18 / 10 ^ 18) eps_l (c_cli5_l (NumR eps_l)) /\ accurate 5 (1 / 10 ^ 34) eps_q (c_cli5_q (NumR eps_q)) /\
  accurate 6 (3 / 10 ^ 15) eps_d (c_cli6_d (NumR eps_d)) /\ accurate 6 (4 / 10 ^ 18) eps_l (c_cli6_l (NumR eps_l)) /\ accurate 6 (2 / 10 ^ 34) eps_q (c_cli6_q (NumR eps_q)).
Proof.
  repeat split.
  - exact (accurate_same _ _ _ _ _ (C47_c_Li2_float _) C45_Li2_float).
  - exact (accurate_same _ _ _ _ _ (C47_c_Li2_double _) C45_Li2_double).
  - exact (accurate_same _ _ _ _ _ (C47_c_Li2_long_double _) C45_Li2_long_double).
  - exact (accurate_same _ _ _ _ _ (C47_c_Li2_quadruple _) C45_Li2_quadruple).
  - exact (accurate_same _ _ _ _ _ (C47_c_Li3_double _) C45_Li3_double).
  - exact (accurate_agree _ _ _ _ _ _ (C47_c_Li3_long_double _) C45_Li3_long_double).
  - exact (accurate_agree _ _ _ _ _ _ (C47_c_Li3_quadruple _) C45_Li3_quadruple).
  - exact (accurate_same _ _ _ _ _ (C47_c_Li4_double _) C45_Li4_double).
  - exact (accurate_agree _ _ _ _ _ _ (C47_c_Li4_long_double _) C45_Li4_long_double).
  - exact (accurate_agree _ _ _ _ _ _ (C47_c_Li4_quadruple _) C45_Li4_quadruple).
  - exact (accurate_agree _ _ _ _ _ _ (C47_c_Li5_double _) C45_Li5_double).
  - exact (accurate_agree _ _ _ _ _ _ (C47_c_Li5_long_double _) C45_Li5_long_double).
  - exact (accurate_agree _ _ _ _ _ _ (C47_c_Li5_quadruple _) C45_Li5_quadruple).
  - exact (accurate_agree _ _ _ _ _ _ (C47_c_Li6_double _) C45_Li6_double).
  - exact (accurate_agree _ _ _ _ _ _ (C47_c_Li6_long_double _) C45_Li6_long_double).
  - exact (accurate_agree _ _ _ _ _ _ (C47_c_Li6_quadruple _) C45_Li6_quadruple).
Qed.
Lemma axis_w n a b e f : a <= b -> axis_accurate n a e f -> axis_accurate n b e f.
Proof.
  intros L H x. destruct (H x) as (v & F & K1 & K2). exists v. split; [exact F|]. split; intros HX; (eapply Rle_trans; [(exact (K1 HX)) || (exact (K2 HX))|]); apply Rmult_le_compat_r; try exact L; [apply Rabs_pos|apply pow_le; pose proof (Cmod_ge_0 (Clog (Copp (x, 0)))); lra].
Qed.
(** on the real axis (cut included, where the value is the limit from below) *)
Theorem C47_c_axis :
  axis_accurate 3 (91 / 10 ^ 19) eps_l (c_cli3_l (NumR eps_l)) /\ axis_accurate 3 (11 / 10 ^ 35) eps_q (c_cli3_q (NumR eps_q)) /\
  axis_accurate 4 (46 / 10 ^ 19) eps_l (c_cli4_l (NumR eps_l)) /\ axis_accurate 4 (11 / 10 ^ 35) eps_q (c_cli4_q (NumR eps_q)) /\
  axis_accurate 5 (11 / 10 ^ 16) eps_d (c_cli5_d (NumR eps_d)) /\ axis_accurate 5 (19 / 10 ^ 18) eps_l (c_cli5_l (NumR eps_l)) /\ axis_accurate 5 (11 / 10 ^ 35) eps_q (c_cli5_q (NumR eps_q)) /\
  axis_accurate 6 (31 / 10 ^ 16) eps_d (c_cli6_d (NumR eps_d)) /\ axis_accurate 6 (41 / 10 ^ 19) eps_l (c_cli6_l (NumR eps_l)) /\ axis_accurate 6 (21 / 10 ^ 35) eps_q (c_cli6_q (NumR eps_q)).
Proof.
  repeat split.
  - eapply axis_w; [|exact (axis_agree _ _ _ _ _ _ (C47_c_Li3_long_double _) C26_Li3_long_double)]; lra.
  - eapply axis_w; [|exact (axis_agree _ _ _ _ _ _ (C47_c_Li3_quadruple _) C26_Li3_quadruple)]; lra.
  - eapply axis_w; [|exact (axis_agree _ _ _ _ _ _ (C47_c_Li4_long_double _) C26_Li4_long_double)]; lra.
  - eapply axis_w; [|exact (axis_agree _ _ _ _ _ _ (C47_c_Li4_quadruple _) C26_Li4_quadruple)]; lra.
  - eapply axis_w; [|exact (axis_agree _ _ _ _ _ _ (C47_c_Li5_double _) C26_Li5_double)]; lra.
  - eapply axis_w; [|exact (axis_agree _ _ _ _ _ _ (C47_c_Li5_long_double _) C26_Li5_long_double)]; lra.
  - eapply axis_w; [|exact (axis_agree _ _ _ _ _ _ (C47_c_Li5_quadruple _) C26_Li5_quadruple)]; lra.
  - eapply axis_w; [|exact (axis_agree _ _ _ _ _ _ (C47_c_Li6_double _) C26_Li6_double)]; lra.
  - eapply axis_w; [|exact (axis_agree _ _ _ _ _ _ (C47_c_Li6_long_double _) C26_Li6_long_double)]; lra.
  - eapply axis_w; [|exact (axis_agree _ _ _ _ _ _ (C47_c_Li6_quadruple _) C26_Li6_quadruple)]; lra.
Qed.

(** ** the Fortran functions off the real axis ([un]: whatever the result variable held on entry) *)
Theorem C47_f_accuracy un :
  accurate 2 (27 / 10 ^ 17) eps_d (fun z => fst (f_cdli2 (NumR eps_d) un z)) /\ accurate 3 (11 / 10 ^ 15) eps_d (fun z => fst (f_cdli3 (NumR eps_d) z)) /\
  accurate 4 (9 / 10 ^ 15) eps_d (fun z => fst (f_cdli4 (NumR eps_d) z)) /\ accurate 5 (2 / 10 ^ 15) eps_d (fun z => fst (f_cdli5 (NumR eps_d) z)) /\
  accurate 6 (4 / 10 ^ 15) eps_d (fun z => fst (f_cdli6 (NumR eps_d) z)).
Proof.
  repeat split; intros z H; [destruct (acc_f_cdli2 un z H) as (v & E & K)|destruct (acc_f_cdli3 eps_d z H) as (v & E & K)|destruct (acc_f_cdli4 eps_d z H) as (v & E & K)|destruct (acc_f_cdli5 eps_d z H) as (v & E & K)|destruct (acc_f_cdli6 eps_d z H) as (v & E & K)]; exists v; (split; [rewrite E; reflexivity|exact K]).
Qed.
(** on the real axis cdli2, cdli3, cdli4 use dli2, dli3, dli4 *)
Ltac axisf := unfold f_cdli2, f_cdli3, f_cdli4; cbv zeta; unfold ofC; cbn [fst snd]; rewrite ?lit_int; cbn [eqb leb ltb ocmp NumR]; rewrite Reqb_true by reflexivity.
Lemma axis_caseF (x : R) : (Rleb x 1 = true /\ Rltb 1 x = false /\ x <= 1) \/ (Rleb x 1 = false /\ Rltb 1 x = true /\ 1 < x).
Proof. unfold Rleb, Rltb. destruct (Rle_dec x 1), (Rlt_dec 1 x); [lra|left|right|lra]; repeat split; auto; lra. Qed.
Lemma pi_ft_err : Rabs (PI - litR 314159265358979324 (-17)) <= 5e-17.
Proof. rewrite litR_dec. pose proof PI_dec20. change (IZR (10 ^ Z.pos 17)) with 100000000000000000. apply Rabs_le. lra. Qed.
Theorem C47_f_cdli2_axis un (x : R) : exists v, fst (f_cdli2 RD un (ofC eps_d (x, 0))) = ofC eps_d v /\
  Rabs (fst v - ReLi 2 x) <= 2 / 10 ^ 16 * Rmin 1 (Rabs x) /\ Rabs (snd v - ImLi 2 x) <= 2e-17 * Rabs (ImLi 2 x).
Proof.
  destruct (C41_dli2_accuracy x) as (v & E & A). unfold RD in *. axisf. destruct (axis_caseF x) as [(-> & -> & B)|(-> & -> & B)]; unfold ImLi; destruct (Rle_dec x 1); try lra; rewrite E; cbn [fst].
  - exists (v, 0). split; [reflexivity|]. cbn [fst snd]. split; [exact A|]. rewrite Rminus_eq_0, Rabs_R0. lra.
  - change (lit (NumR eps_d) 314159265358979324 (-17)) with (Some (litR 314159265358979324 (-17))).
    pose proof pi_ft_err as P. set (p := litR 314159265358979324 (-17)) in *.
    cbn [nlog NumR opp lift1]. rewrite olog_some by lra. cbn [mul div NumR lift2 lift1]. rewrite ?odiv_some by lra. cbn [mul div NumR lift2 lift1].
    exists (v, - (p * ln x ^ (2 - 1) / INR (fact (2 - 1)))). split; [unfold ofC; cbn [fst snd]; do 2 f_equal; cbn [Nat.sub fact pow INR Nat.mul Nat.add]; f_equal; field|].
    cbn [fst snd]. split; [exact A|]. apply (im_err p 5e-17); [exact B|exact P|lra].
Qed.
Theorem C47_f_cdli3_axis (x : R) : exists v, fst (f_cdli3 RD (ofC eps_d (x, 0))) = ofC eps_d v /\
  Rabs (fst v - ReLi 3 x) <= 3 / 10 ^ 16 * Rmin 1 (Rabs x) + 1 / 10 ^ 16 * ln (Rmax 1 (Rabs x)) /\ Rabs (snd v - ImLi 3 x) <= 2e-17 * Rabs (ImLi 3 x).
Proof.
  destruct (C41_dli3_accuracy x) as (v & E & A). unfold RD in *. axisf. destruct (axis_caseF x) as [(-> & _ & B)|(-> & _ & B)]; unfold ImLi; destruct (Rle_dec x 1); try lra; rewrite E; cbn [fst].
  - exists (v, 0). split; [reflexivity|]. cbn [fst snd]. split; [exact A|]. rewrite Rminus_eq_0, Rabs_R0. lra.
  - change (lit (NumR eps_d) (31415926535897932) (-16)) with (Some (litR (31415926535897932) (-16))).
    pose proof pi_d_err as P. set (p := litR (31415926535897932) (-16)) in *.
    cbn [nlog NumR opp lift1]. rewrite olog_some by lra. cbn [mul div NumR lift2 lift1]. rewrite ?odiv_some by lra. cbn [mul div NumR lift2 lift1].
    exists (v, - (p * ln x ^ (3 - 1) / INR (fact (3 - 1)))). split; [unfold ofC; cbn [fst snd]; do 2 f_equal; change (lit (NumR eps_d) 5 (-1)) with (Some (litR 5 (-1))); rewrite litR_half; cbn [lift2 lift1]; f_equal; cbn [Nat.sub fact pow INR Nat.mul Nat.add]; field|].
    cbn [fst snd]. split; [exact A|]. apply (im_err p 5e-17); [exact B|exact P|lra].
Qed.
Theorem C47_f_cdli4_axis (x : R) : exists v, fst (f_cdli4 RD (ofC eps_d (x, 0))) = ofC eps_d v /\
  Rabs (fst v - ReLi 4 x) <= 2 / 10 ^ 16 * Rmin 1 (Rabs x) + 4 / 10 ^ 17 * (ln (Rmax 1 (Rabs x))) ^ 2 /\ Rabs (snd v - ImLi 4 x) <= 2e-17 * Rabs (ImLi 4 x).
Proof.
  destruct (C41_dli4_accuracy x) as (v & E & A). unfold RD in *. axisf. destruct (axis_caseF x) as [(-> & _ & B)|(-> & _ & B)]; unfold ImLi; destruct (Rle_dec x 1); try lra; rewrite E; cbn [fst].
  - exists (v, 0). split; [reflexivity|]. cbn [fst snd]. split; [exact A|]. rewrite Rminus_eq_0, Rabs_R0. lra.
  - change (lit (NumR eps_d) (31415926535897932) (-16)) with (Some (litR (31415926535897932) (-16))).
    pose proof pi_d_err as P. set (p := litR (31415926535897932) (-16)) in *.
    cbn [nlog NumR opp lift1]. rewrite olog_some by lra. cbn [mul div NumR lift2 lift1]. rewrite ?odiv_some by lra. cbn [mul div NumR lift2 lift1].
    exists (v, - (p * ln x ^ (4 - 1) / INR (fact (4 - 1)))). split; [unfold ofC; cbn [fst snd]; do 2 f_equal; cbn [Nat.sub fact pow INR Nat.mul Nat.add]; f_equal; field|].
    cbn [fst snd]. split; [exact A|]. apply (im_err p 5e-17); [exact B|exact P|lra].
Qed.
(** cdli5 and cdli6 use the series there too, with their own literals for pi^2, pi^4, pi^6 *)
Lemma lmz_axis x : 1 < Rabs x -> lmz PI (RtoC x) = Clog (Copp (x, 0)).
Proof.
  intros H. assert (CO : Copp (x, 0) = RtoC (- x)) by (unfold Copp, RtoC; cbn [fst snd]; f_equal; ring). rewrite CO. pose proof PI_RGT_0 as PP. unfold lmz, Clog, Carg, atan2R. rewrite !Cmod_R, Rabs_Ropp. cbn [fst snd RtoC].
  destruct (Rlt_dec 0 x) as [P|P].
  - destruct (Rlt_dec 0 (- x)); [lra|]. destruct (Rlt_dec (- x) 0); [|lra]. destruct (Rle_dec 0 0); [|lra]. replace (0 / x) with 0 by (field; lra). replace (0 / - x) with 0 by (field; lra). rewrite atan_0. destruct (Rlt_dec 0 0); [lra|]. reflexivity.
  - assert (x < 0) by (destruct (Req_dec x 0) as [->|]; [rewrite Rabs_R0 in H; lra|lra]). destruct (Rlt_dec x 0); [|lra]. destruct (Rle_dec 0 0); [|lra]. destruct (Rlt_dec 0 (- x)); [|lra].
    replace (0 / x) with 0 by (field; lra). replace (0 / - x) with 0 by (field; lra). rewrite atan_0. destruct (Rlt_dec 0 (0 + PI)); [|lra]. f_equal. ring.
Qed.
Lemma axisF_gen n Ul Tl p z2 rl sg pl d c eps e (f : cpx (NumR e) -> cpx (NumR e) * cpx (NumR e)) g : (3 <= n <= 6)%nat -> Rabs (p - PI) <= d -> d <= 1 -> / 2 * Rabs (pl - PI) <= c ->
  length rl = length (rlist n p z2) -> Bd 0 rl (rlist n p z2) <= c ->
  (forall z, ordinary z -> cokx z -> f (ofC e z) = (ofC e (cvalL n Ul Tl p rl sg z), ofC e z)) -> (forall z, ordinary z -> g (ofC e z) = ofC e (cval n Ul Tl p z2 sg z)) ->
  (forall z, snd z = 0 -> 1 < fst z -> Cmod (Clog z) * Cmod (Clog z) < 1 -> f (ofC e z) = (ofC e (Cplus (cpev (map rq Ul) (Clog z)) (Cmult (Cpow (Clog z) (n - 1)) (Lcl n (Cplus (Clog (Copp (Clog z))) (0, pl - PI))))), ofC e z)) ->
  (forall x, x = 0 \/ x = 1 \/ x = -1 -> fst (f (ofC e (RtoC x))) = g (ofC e (RtoC x))) ->
  axis_accurate n eps e g -> axis_accurate n (eps + c) e (fun z => fst (f z)).
Proof.
  intros Hn Hp Hd Hpl Hl HB EF EG EX SP AC x. assert (c0 : 0 <= c) by (pose proof (Rabs_pos (pl - PI)); lra).
  destruct (AC x) as (w & G & K1 & K2). set (M := (1 + Cmod (Clog (Copp (x, 0)))) ^ n) in *. assert (M1 : 1 <= M) by (apply pow_R1_Rle; pose proof (Cmod_ge_0 (Clog (Copp (x, 0)))); lra).
  assert (FIN : forall v, fst (f (ofC e (x, 0))) = ofC e v -> (Rabs x <= 1 -> v = w) -> (1 < Rabs x -> Cmod (Cminus v w) <= c * M) -> exists v : C, fst (f (ofC e (x, 0))) = ofC e v /\
    (Rabs x <= 1 -> Cmod (Cminus v (ReLi n x, ImLi n x)) <= (eps + c) * Rabs x) /\ (1 < Rabs x -> Cmod (Cminus v (ReLi n x, ImLi n x)) <= (eps + c) * M)).
  { intros v F S D. exists v. split; [exact F|]. split; intros HX.
    - rewrite (S HX). eapply Rle_trans; [exact (K1 HX)|]. apply Rmult_le_compat_r; [apply Rabs_pos|lra].
    - replace (Cminus v (ReLi n x, ImLi n x)) with (Cplus (Cminus w (ReLi n x, ImLi n x)) (Cminus v w)) by ring. eapply Rle_trans; [apply Cmod_triangle|]. rewrite Rmult_plus_distr_r. apply Rplus_le_compat; [exact (K2 HX)|exact (D HX)]. }
  change (x, 0) with (RtoC x) in *.
  assert (SPEC : x = 0 \/ x = 1 \/ x = -1 \/ (x <> 0 /\ x <> 1 /\ x <> -1)) by (destruct (Req_dec x 0), (Req_dec x 1), (Req_dec x (-1)); tauto).
  assert (SC : x = 0 \/ x = 1 \/ x = -1 \/ ordinary (RtoC x)) by (destruct SPEC as [S|[S|[S|S]]]; auto; right; right; right; right; exact S). clear SPEC.
  assert (Z : forall y : C, Cmod (Cminus y y) <= 0) by (intros y; replace (Cminus y y) with (RtoC 0) by ring; rewrite Cmod_0; lra).
  assert (SAME : fst (f (ofC e (RtoC x))) = ofC e w -> Cmod (Cminus w w) <= c * M) by (intros _; eapply Rle_trans; [apply Z|]; apply Rmult_le_pos; lra).
  assert (S3 : x = 0 \/ x = 1 \/ x = -1 -> fst (f (ofC e (RtoC x))) = ofC e w) by (intros S; rewrite (SP x S); exact G).
  destruct SC as [S|[S|[S|OR]]]; [apply (FIN w); auto|apply (FIN w); auto|apply (FIN w); auto|].
  pose proof (EG _ OR) as G'. rewrite G in G'. apply ofC_injf in G'.
  assert (VL : ~ (1 < x /\ Cmod (Clog (RtoC x)) * Cmod (Clog (RtoC x)) < 1) -> cokx (RtoC x)).
  { intros NX. destruct (Rlt_dec x 1) as [L|L]; [left; right; split; [reflexivity|exact L]|]. right. split; [reflexivity|].
    assert (1 < x) by (destruct OR as [Q|(_ & Q & _)]; unfold RtoC in Q; cbn [fst snd] in Q; lra). unfold RtoC at 1. cbn [fst]. split; [assumption|]. intros Q. apply NX. split; assumption. }
  destruct (Rlt_dec (Cmod (Clog (RtoC x)) * Cmod (Clog (RtoC x))) 1) as [U1|U1].
  - destruct (Rlt_dec 1 x) as [X1|X1].
    + eapply FIN; [rewrite (EX (RtoC x) eq_refl X1 U1); reflexivity|intros Q; rewrite Rabs_pos_eq in Q by lra; lra|]. intros _. rewrite G'. unfold cval. destruct (Rlt_dec (Cmod (Clog (RtoC x)) * Cmod (Clog (RtoC x))) 1) as [_|Q]; [|contradiction].
      rewrite Lm_Lc by exact Hn. set (u := Clog (RtoC x)) in *. set (D := (0, pl - PI) : C).
      replace (Cminus (Cplus (cpev (map rq Ul) u) (Cmult (Cpow u (n - 1)) (Lcl n (Cplus (Clog (Copp u)) D)))) (Cplus (cpev (map rq Ul) u) (Cmult (Cpow u (n - 1)) (Lc n u)))) with (Cmult (Cpow u (n - 1)) (Cminus (Lcl n (Cplus (Clog (Copp u)) D)) (Lc n u))) by ring.
      rewrite Cmod_mult, Cpow_mod. pose proof (Cmod_ge_0 u). assert (W1 : Cmod u <= 1) by nra. assert (P1 : Cmod u ^ (n - 1) <= 1) by (rewrite <- (pow1 (n - 1)); apply pow_incr; lra). assert (P0 : 0 <= Cmod u ^ (n - 1)) by (apply pow_le; lra).
      pose proof (Lcl_near n u D Hn) as K. set (Y := Cmod (Cminus (Lcl n (Cplus (Clog (Copp u)) D)) (Lc n u))) in *. assert (Y0 : 0 <= Y) by apply Cmod_ge_0.
      assert (DD0 : Cmod D = Rabs (pl - PI)). { unfold D, Cmod. cbn [fst snd]. rewrite <- sqrt_Rsqr_abs. f_equal. unfold Rsqr. ring. }
      rewrite DD0 in K. apply Rle_trans with (1 * Y); [apply Rmult_le_compat_r; assumption|]. apply Rle_trans with (c * 1); [lra|apply Rmult_le_compat_l; lra].
    + assert (CK : cokx (RtoC x)) by (apply VL; intros [Q _]; lra). pose proof (EF _ OR CK) as F. unfold cvalL in F. unfold cval in G'. destruct (Rlt_dec (Cmod (Clog (RtoC x)) * Cmod (Clog (RtoC x))) 1) as [_|Q]; [|contradiction].
      apply (FIN w); [rewrite F, G'; reflexivity|auto|auto]. intros _. apply SAME. rewrite F, G'. reflexivity.
  - assert (CK : cokx (RtoC x)) by (apply VL; intros [_ Q]; contradiction). pose proof (EF _ OR CK) as F. unfold cvalL in F. unfold cval in G'. destruct (Rlt_dec (Cmod (Clog (RtoC x)) * Cmod (Clog (RtoC x))) 1) as [Q|_]; [contradiction|].
    destruct (Rle_dec (Cmod (RtoC x)) 1) as [L1|L1].
    + apply (FIN w); [rewrite F, G'; reflexivity|auto|auto]. intros _. apply SAME. rewrite F, G'. reflexivity.
    + rewrite Cmod_R in L1. apply Rnot_le_lt in L1. eapply FIN; [rewrite F; reflexivity|intros Q; lra|]. intros _. rewrite G', restq_list by exact Hn. set (L := lmz p (RtoC x)) in *. set (T := Cmult (RtoC sg) _).
      replace (Cminus (Cplus (cpev rl L) T) (Cplus (cpev (rlist n p z2) L) T)) with (Cminus (cpev rl L) (cpev (rlist n p z2) L)) by ring.
      eapply Rle_trans; [apply (Bd_ok (1 + Cmod (Clog (Copp (x, 0)))) 0 rl) with (k := n)|apply Rmult_le_compat_r; [apply Rle_trans with 1; [lra|exact M1]|exact HB]].
      * pose proof (Cmod_ge_0 (Clog (Copp (x, 0)))). lra.
      * lra.
      * exact Hl.
      * rewrite Hl. destruct n as [|[|[|[|[|[|[|n]]]]]]]; cbn [rlist length]; lia.
      * rewrite <- lmz_axis by exact L1. pose proof (lmz_near p (RtoC x) d Hp) as N1. fold L in N1. replace L with (Cplus (Cminus L (lmz PI (RtoC x))) (lmz PI (RtoC x))) by ring. eapply Rle_trans; [apply Cmod_triangle|]. lra.
      * rewrite <- lmz_axis by exact L1. pose proof (lmz_near p (RtoC x) d Hp) as N1. fold L in N1. replace L with (Cplus (Cminus L (lmz PI (RtoC x))) (lmz PI (RtoC x))) by ring. eapply Rle_trans; [apply Cmod_triangle|]. lra.
      * apply Z.
Qed.
Lemma fp5 e x : x = 0 \/ x = 1 \/ x = -1 -> fst (f_cdli5 (NumR e) (ofC e (RtoC x))) = cLi5_d (NumR e) (ofC e (RtoC x)).
Proof.
  intros [->|[->| ->]].
  - rewrite at0_cLi5_d. unfold f_cdli5. cbv zeta. rewrite pick_a by tt. reflexivity.
  - rewrite at1_cLi5_d. unfold f_cdli5. cbv zeta. rewrite pick_b by tt. cbn [fst]. val.
  - rewrite atm1_cLi5_d. unfold f_cdli5. cbv zeta. rewrite pick_c by tt. cbn [fst]. unfold ofC, RtoC. cbn [fst snd]. evf. do 2 f_equal. replace (rq (-15, 1)%Z) with (- rq (15, 1)%Z) by (unfold rq; cbn [fst snd]; field). absq. field.
Qed.
Lemma fp6 e x : x = 0 \/ x = 1 \/ x = -1 -> fst (f_cdli6 (NumR e) (ofC e (RtoC x))) = cLi6_d (NumR e) (ofC e (RtoC x)).
Proof.
  intros [->|[->| ->]].
  - rewrite at0_cLi6_d. unfold f_cdli6. cbv zeta. rewrite pick_a by tt. reflexivity.
  - rewrite at1_cLi6_d. unfold f_cdli6. cbv zeta. rewrite pick_b by tt. cbn [fst]. val.
  - rewrite atm1_cLi6_d. unfold f_cdli6. cbv zeta. rewrite pick_c by tt. cbn [fst]. unfold ofC, RtoC. cbn [fst snd]. evf. do 2 f_equal. replace (rq (-31, 1)%Z) with (- rq (31, 1)%Z) by (unfold rq; cbn [fst snd]; field). absq. field.
Qed.
Theorem C47_f_cdli5_axis : axis_accurate 5 (2 / 10 ^ 15) eps_d (fun z => fst (f_cdli5 (NumR eps_d) z)).
Proof.
  apply axis_w with (1 / 10 ^ 15 + 1 / 10 ^ 15); [lra|].
  eapply (axisF_gen 5 (T_cLi5_d_hd ++ spread T_cLi5_d_cs) T_cLi5_d_bf (rq T_cLi5_d_pi) _ RL_f_cdli5 1 (rq (314159265358979324, 10 ^ 17)%Z) (5 / 10 ^ 16)); [lia| |lra| | | |exact (ev_f_cdli5 eps_d)|exact (ev_cLi5_d eps_d)|exact (evx_f_cdli5 eps_d)|exact (fp5 eps_d)|exact C26_Li5_double].
  - unfold rq, T_cLi5_d_pi. cbn [fst snd]. interval with (i_prec 200).
  - unfold rq. cbn [fst snd]. interval with (i_prec 200).
  - reflexivity.
  - unfold RL_f_cdli5, T_cLi5_d_pi, rq. cbn [rlist Bd Sabs fst snd]. interval with (i_prec 200).
Qed.
Theorem C47_f_cdli6_axis : axis_accurate 6 (4 / 10 ^ 15) eps_d (fun z => fst (f_cdli6 (NumR eps_d) z)).
Proof.
  apply axis_w with (3 / 10 ^ 15 + 1 / 10 ^ 15); [lra|].
  eapply (axisF_gen 6 (T_cLi6_d_hd ++ spread T_cLi6_d_cs) T_cLi6_d_bf (rq T_cLi6_d_pi) _ RL_f_cdli6 (-1) (rq (314159265358979324, 10 ^ 17)%Z) (5 / 10 ^ 16)); [lia| |lra| | | |exact (ev_f_cdli6 eps_d)|exact (ev_cLi6_d eps_d)|exact (evx_f_cdli6 eps_d)|exact (fp6 eps_d)|exact C26_Li6_double].
  - unfold rq, T_cLi6_d_pi. cbn [fst snd]. interval with (i_prec 200).
  - unfold rq. cbn [fst snd]. interval with (i_prec 200).
  - reflexivity.
  - unfold RL_f_cdli6, T_cLi6_d_pi, rq. cbn [rlist Bd Sabs fst snd]. interval with (i_prec 200).
Qed.
(** the Fortran complex functions leave the caller's argument as it was (in any arithmetic) *)
Theorem C47_f_argument_unchanged (N : num) (un z : cpx N) :
  snd (f_cdli2 N un z) = z /\ snd (f_cdli3 N z) = z /\ snd (f_cdli4 N z) = z /\ snd (f_cdli5 N z) = z /\ snd (f_cdli6 N z) = z.
Proof.
  unfold f_cdli2, f_cdli3, f_cdli4, f_cdli5, f_cdli6. cbv zeta.
  repeat split; repeat match goal with |- snd (if ?b then _ else _) = _ => destruct b; try reflexivity | |- snd (let '(_, _) := ?p in _) = _ => destruct p as [? ?] | |- snd (let '(_, _) := ?p in _) = _ => let q := fresh in set (q := p); clearbody q; destruct q as [? ?] end; try reflexivity.
Qed.
(** a concrete case: 1 + i lies off the axis, and there the C and C++ long double Li_3 are the same number *)
Example C47_case e : exists v, c_cli3_l (NumR e) (ofC e (1, 1)) = ofC e v /\ cLi3_l (NumR e) (ofC e (1, 1)) = ofC e v.
Proof. destruct (C47_c_Li3_long_double e (1, 1)) as (v & w & F & G & E & _). exists v. split; [exact F|]. rewrite E; [exact G|]. left. cbn. lra. Qed.
