(** * The polylogarithm as a function of u = -Log(1-z), and the two polynomial residual checks.
    Nothing here mentions the code. *)
From Coq Require Import ZArith Reals List Bool Lra Lia Psatz.
From Coquelicot Require Import Coquelicot.
From Verif Require Import NumR Spec Cplx Clog_series Chain Polylog Ccalc CLi CLi_disc CLi_inv Unity Rest Cpoly CLi_unity CLi_exp.
Import ListNotations.
Local Open Scope R_scope.

Definition U (z : C) : C := Copp (Clog (Cminus (RtoC 1) z)).
(** the ray from 0 to z stays where |Log(1-tz)| <= rho and |1 - tz| >= 1/2 *)
Definition good (rho : R) (z : C) : Prop := forall t, 0 <= t <= 1 ->
  slit (Cmult (RtoC t) z) /\ Cmod (U (Cmult (RtoC t) z)) <= rho /\ / 2 <= Cmod (Cminus (RtoC 1) (Cmult (RtoC t) z)).
Lemma U_der z t : slit (Cmult (RtoC t) z) -> cder (fun s => U (Cmult (RtoC s) z)) t (Cdiv z (Cminus (RtoC 1) (Cmult (RtoC t) z))).
Proof.
  intros H. unfold U. pose proof (slit_1m _ H) as O. eapply cder_eq; [|apply cder_opp, cder_Clog; [exact O|apply (cder_minus (fun _ => RtoC 1)); [apply cder_const|apply cder_ray]]].
  cbv beta. field. apply offneg_neq, O.
Qed.
Lemma U_small rho z : good rho z -> forall t, 0 <= t <= 1 -> Cmod (U (Cmult (RtoC t) z)) <= 2 * t * Cmod z.
Proof.
  intros G t Ht. pose proof (Cmod_ge_0 z) as Z0.
  assert (U0 : U (Cmult (RtoC 0) z) = RtoC 0).
  { unfold U. rewrite Cmult_0_l. replace (Cminus (RtoC 1) (RtoC 0)) with (RtoC 1) by ring. rewrite Clog_pos, ln_1 by lra. ring. }
  assert (M := cmv_M (fun s => U (Cmult (RtoC s) z)) (fun s => Cdiv z (Cminus (RtoC 1) (Cmult (RtoC s) z))) (2 * Cmod z) 0 t).
  cbv beta in M. rewrite U0 in M. replace (Cminus (U (Cmult (RtoC t) z)) (RtoC 0)) with (U (Cmult (RtoC t) z)) in M by ring.
  replace (2 * t * Cmod z) with (2 * Cmod z * (t - 0)) by ring. apply M.
  - lra.
  - intros s Hs. apply U_der, G. lra.
  - intros s Hs. eapply cder_cont, U_der, G. lra.
  - intros s Hs. destruct (G s ltac:(lra)) as (S1 & _ & B). rewrite Cmod_div by (apply offneg_neq, slit_1m, S1).
    unfold Rdiv. rewrite Rmult_comm. apply Rmult_le_compat_r; [exact Z0|]. replace 2 with (/ / 2) by field. apply Rinv_le_contravar; lra.
Qed.
Lemma Cexp_U z : slit z -> Cexp (U z) = Cinv (Cminus (RtoC 1) z).
Proof.
  intros H. unfold U. rewrite Cexp_opp. f_equal. pose proof (offneg_neq _ (slit_1m _ H)) as N. apply (Clog_spec _ N).
Qed.
Definition resT (Q : nat -> list R) (n : nat) (u : C) : C := Cminus (cpev (Q n) u) (Cmult (cpev (dl (Q (S n))) u) (Cminus (Cexp u) (RtoC 1))).
Theorem T_bound (Q : nat -> list R) rho eps N : Q 1%nat = [0; 1] -> (forall n, (2 <= n <= N)%nat -> hd 0 (Q n) = 0) -> 0 <= eps ->
  (forall n u, (1 <= n < N)%nat -> Cmod u <= rho -> Cmod (resT Q n u) <= eps * Cmod u) ->
  forall z, good rho z -> forall n, (1 <= n <= N)%nat ->
  Cmod (Cminus (CLi n z) (cpev (Q n) (U z))) <= 2 * (INR n - 1) * eps * Cmod z.
Proof.
  intros Q1 Q0 E0 R z G n Hn. pose proof (Cmod_ge_0 z) as Z0.
  assert (U0 : U (Cmult (RtoC 0) z) = RtoC 0).
  { unfold U. rewrite Cmult_0_l. replace (Cminus (RtoC 1) (RtoC 0)) with (RtoC 1) by ring. rewrite Clog_pos, ln_1 by lra. ring. }
  enough (H : forall n, (1 <= n <= N)%nat -> forall t, 0 <= t <= 1 -> Cmod (Cminus (CLi n (Cmult (RtoC t) z)) (cpev (Q n) (U (Cmult (RtoC t) z)))) <= 2 * (INR n - 1) * eps * Cmod z * t).
  { specialize (H n Hn 1 ltac:(lra)). rewrite Cmult_1_l, Rmult_1_r in H. exact H. }
  clear n Hn. induction n as [|n IH]; intros Hn t Ht; [lia|]. destruct (Nat.eq_dec n 0) as [->|Nn].
  - replace (cpev (Q 1%nat) (U (Cmult (RtoC t) z))) with (U (Cmult (RtoC t) z)).
    2:{ rewrite Q1. cbn [cpev]. ring. }
    unfold U. cbn [CLi]. match goal with |- Cmod ?x <= _ => replace x with (RtoC 0) by ring end. rewrite Cmod_0. cbn [INR]. lra.
  - assert (Nn' : (1 <= n <= N)%nat) by lia. specialize (IH Nn').
    set (f := fun s => Cminus (CLi (S n) (Cmult (RtoC s) z)) (cpev (Q (S n)) (U (Cmult (RtoC s) z)))).
    assert (f0 : f 0 = RtoC 0).
    { unfold f. rewrite U0. rewrite Cmult_0_l, CLi_0. specialize (Q0 (S n) ltac:(lia)). destruct (Q (S n)) as [|c l]; [cbn; ring|]. cbn in Q0. subst c. cbn [cpev]. ring. }
    change (Cmod (f t) <= 2 * (INR (S n) - 1) * eps * Cmod z * t).
    replace (f t) with (Cminus (f t) (f 0)) by (rewrite f0; ring). replace (2 * (INR (S n) - 1) * eps * Cmod z * t) with (2 * (INR (S n) - 1) * eps * Cmod z * (t - 0)) by ring.
    apply (cmv_M f (fun s => Cdiv (Cplus (Cminus (CLi n (Cmult (RtoC s) z)) (cpev (Q n) (U (Cmult (RtoC s) z)))) (resT Q n (U (Cmult (RtoC s) z)))) (RtoC s))).
    + lra.
    + intros s Hs. destruct (G s ltac:(lra)) as (S1 & S2 & S3). pose proof (offneg_neq _ (slit_1m _ S1)) as N1. assert (Ns : RtoC s <> RtoC 0) by (apply RtoC_neq; lra).
      unfold f. eapply cder_eq; [|apply cder_minus; [apply CLi_der; [lra|exact S1]|apply dl_der, U_der, S1]].
      unfold resT. rewrite Cexp_U by exact S1. field. split; assumption.
    + intros s Hs. destruct (G s ltac:(lra)) as (S1 & S2 & S3). unfold f. apply ccont_minus; [apply CLi_ray_cont; [lra|exact S1]|]. apply cpev_cont. eapply cder_cont, U_der, S1.
    + intros s Hs. destruct (G s ltac:(lra)) as (S1 & S2 & S3). assert (Ns : RtoC s <> RtoC 0) by (apply RtoC_neq; lra). rewrite Cmod_div by exact Ns. rewrite Cmod_R, Rabs_pos_eq by lra.
      apply Rle_div_l; [lra|]. eapply Rle_trans; [apply Cmod_triangle|].
      eapply Rle_trans; [apply Rplus_le_compat; [apply IH; lra|apply R; [lia|exact S2]]|].
      pose proof (U_small rho z G s ltac:(lra)) as US. apply Rmult_le_compat_l with (r := eps) in US; [|exact E0]. rewrite S_INR. lra.
Qed.

(** ** the two residuals as integer polynomials *)
Definition nzl (D : Z) (bz : list Z) (M : nat) : list Z := let fp := rl 0 M in let F := hd 0%Z fp in
  subz (addz (sclz D (0%Z :: fp)) (subz [(D * F)%Z] (sclz D fp))) (0%Z :: mulz (subz [F] fp) bz).
Definition tzl (qa qb : list Z) (M : nat) : list Z := let fp := rl 0 M in let F := hd 0%Z fp in
  subz (sclz F qa) (mulz (subz fp [F]) (dlz qb)).

Lemma cz_1 c x : cz [c] x = RtoC (IZR c). Proof. unfold cz. cbn [map cpev]. ring. Qed.
Lemma skipn2 (l : list Z) : skipn 2 l = tl (tl l). Proof. destruct l as [|? [|? ?]]; reflexivity. Qed.
Section Res.
Variables (p q : Z) (M : nat) (D : Z).
Hypothesis Hq : (0 < q)%Z.
Hypothesis Hp : (0 <= p)%Z.
Hypothesis HD : (0 < D)%Z.
Let rho := IZR p / IZR q.
Let F := hd 0%Z (rl 0 M).
Lemma rho_pos : 0 <= rho.
Proof. unfold rho. assert (0 < IZR q) by (apply (IZR_lt 0), Hq). assert (0 <= IZR p) by (apply (IZR_le 0), Hp). apply Rmult_le_pos; [assumption|left; apply Rinv_0_lt_compat; assumption]. Qed.
Lemma F_pos : 0 < IZR F.
Proof. unfold F. rewrite <- rl0_F. apply INR_fact_lt_0. Qed.
Lemma DC : RtoC (IZR D) <> RtoC 0. Proof. clear - HD. apply RtoC_neq, not_0_IZR. lia. Qed.
Lemma FC : RtoC (IZR F) <> RtoC 0. Proof. apply RtoC_neq. pose proof F_pos. lra. Qed.
Definition P (x : C) : C := Csum (expterm x) (S M).
Lemma rl0_P x : cz (rl 0 M) x = Cmult (RtoC (IZR F)) (P x).
Proof. rewrite rl0_ok, rl0_F. reflexivity. Qed.
Lemma P_err x : Cmod x <= rho -> Cmod (Cminus (Cexp x) (P x)) <= exp rho * (inv_fact (S M) * Cmod x ^ S M).
Proof.
  intros H. eapply Rle_trans; [apply exp_rem|]. apply Rmult_le_compat_r; [|apply exp_mono, H].
  apply Rmult_le_pos; [left; apply inv_fact_pos|apply pow_le, Cmod_ge_0].
Qed.
Definition epsT (qa qb : list Z) : R := IZR (ub p q (tl (tzl qa qb M))) / (IZR F * IZR D) + IZR (ub p q (dlz qb)) / IZR D * (exp rho * (inv_fact (S M) * rho ^ M)).
Lemma resT_ok qa qb u : zerosb 1 (tzl qa qb M) = true -> Cmod u <= rho ->
  Cmod (Cminus (cpev (zl D qa) u) (Cmult (cpev (dl (zl D qb)) u) (Cminus (Cexp u) (RtoC 1)))) <= epsT qa qb * Cmod u.
Proof.
  intros Hz Hu. pose proof (Cmod_ge_0 u) as U0. pose proof F_pos as FP. assert (DP : 0 < IZR D) by (apply (IZR_lt 0), HD).
  rewrite <- dlz_ok, !cz_zl by lia.
  assert (T : cz (tzl qa qb M) u = Cminus (Cmult (RtoC (IZR F)) (cz qa u)) (Cmult (Cmult (RtoC (IZR F)) (Cminus (P u) (RtoC 1))) (cz (dlz qb) u))).
  { unfold tzl. fold F. rewrite cz_sub, cz_scl, cz_mul, cz_sub, cz_1, rl0_P. ring. }
  replace (Cminus (Cdiv (cz qa u) (RtoC (IZR D))) (Cmult (Cdiv (cz (dlz qb) u) (RtoC (IZR D))) (Cminus (Cexp u) (RtoC 1))))
    with (Cminus (Cdiv (cz (tzl qa qb M) u) (RtoC (IZR F * IZR D))) (Cmult (Cdiv (cz (dlz qb) u) (RtoC (IZR D))) (Cminus (Cexp u) (P u)))).
  2:{ rewrite T, RtoC_mult. field. split; [apply DC|apply FC]. }
  rewrite (cz_low 1 _ u (zerosb_ok 1 _ Hz)). change (skipn 1 (tzl qa qb M)) with (tl (tzl qa qb M)).
  unfold Cminus at 1. eapply Rle_trans; [apply Cmod_triangle|]. rewrite Cmod_opp, Cmod_mult, !Cmod_div by (try apply DC; apply RtoC_neq; apply Rmult_integral_contrapositive_currified; lra).
  rewrite Cmod_mult, !Cmod_R, !Rabs_pos_eq by (try apply Rmult_le_pos; lra).
  unfold epsT. rewrite Rmult_plus_distr_r. cbn [Cpow]. replace (Cmult u (RtoC 1)) with u by ring. apply Rplus_le_compat.
  - pose proof (ub_ok p q (tl (tzl qa qb M)) u Hq Hp Hu) as B. replace (Cmod u * Cmod (cz (tl (tzl qa qb M)) u) / (IZR F * IZR D)) with (Cmod (cz (tl (tzl qa qb M)) u) * / (IZR F * IZR D) * Cmod u) by (unfold Rdiv; ring).
    apply Rmult_le_compat_r; [exact U0|]. apply Rmult_le_compat_r; [left; apply Rinv_0_lt_compat, Rmult_lt_0_compat; assumption|exact B].
  - pose proof (ub_ok p q (dlz qb) u Hq Hp Hu) as B. rewrite Rmult_assoc. apply Rmult_le_compat.
    + apply Rmult_le_pos; [apply Cmod_ge_0|left; apply Rinv_0_lt_compat; assumption].
    + apply Cmod_ge_0.
    + apply Rmult_le_compat_r; [left; apply Rinv_0_lt_compat; assumption|exact B].
    + eapply Rle_trans; [apply P_err, Hu|]. rewrite !Rmult_assoc. apply Rmult_le_compat_l; [left; apply exp_pos|]. apply Rmult_le_compat_l; [left; apply inv_fact_pos|].
      rewrite (Rmult_comm _ (Cmod u)). cbn [pow]. apply Rmult_le_compat_l; [exact U0|]. apply pow_incr. split; assumption.
Qed.
Definition epsN (bz : list Z) : R := IZR (ub p q (tl (tl (nzl D bz M)))) / (IZR F * IZR D) + (rho + 1 + rho * (IZR (ub p q bz) / IZR D)) * (exp rho * (inv_fact (S M) * rho ^ (M - 1))).
Lemma EU0_ok bz w : (1 <= M)%nat -> zerosb 2 (nzl D bz M) = true -> 0 < snd w <= PI -> Cmod w <= rho ->
  Cmod (EU (zl D bz) 0 w) <= epsN bz * (exp rho * (PI / 2)).
Proof.
  intros HM Hz Hy Hw. pose proof (Cmod_ge_0 w) as W0. pose proof F_pos as FP. assert (DP : 0 < IZR D) by (apply (IZR_lt 0), HD). pose proof PI_RGT_0 as PP.
  assert (WN : w <> RtoC 0) by (intros E; rewrite E in Hy; cbn in Hy; lra).
  assert (WP : 0 < Cmod w) by (apply Cmod_gt_0, WN).
  pose proof (expm1_low w rho rho_pos) as L. assert (AF : Rabs (fst w) <= rho) by (eapply Rle_trans; [apply Cmod_fst|exact Hw]). specialize (L AF ltac:(lra)).
  assert (KP : 0 < exp (- rho) * (2 / PI)) by (apply Rmult_lt_0_compat; [apply exp_pos|apply Rdiv_lt_0_compat; lra]).
  assert (EN : Cminus (Cexp w) (RtoC 1) <> RtoC 0). { intros E. rewrite E, Cmod_0 in L. assert (0 < exp (- rho) * (2 / PI) * Cmod w) by (apply Rmult_lt_0_compat; assumption). lra. }
  assert (EN' : Cminus (RtoC 1) (Cexp w) <> RtoC 0). { replace (Cminus (RtoC 1) (Cexp w)) with (Copp (Cminus (Cexp w) (RtoC 1))) by ring. apply Copp_ne, EN. }
  unfold EU. cbn [CLi IG Lm]. rewrite cz_zl by lia.
  assert (T : cz (nzl D bz M) w = Cmult (RtoC (IZR F)) (Cminus (Cmult (RtoC (IZR D)) (Cplus (Cmult w (P w)) (Cminus (RtoC 1) (P w)))) (Cmult w (Cmult (Cminus (RtoC 1) (P w)) (cz bz w))))).
  { unfold nzl. fold F. rewrite cz_sub, cz_add, cz_scl, cz_sub, cz_scl, !cz_cons, cz_mul, cz_sub, cz_1, rl0_P. unfold cz at 1. cbn [map cpev]. rewrite mult_IZR, RtoC_mult. ring. }
  set (Nn := Cplus (Cdiv (cz (nzl D bz M) w) (RtoC (IZR F * IZR D))) (Cmult (Cplus (Cminus w (RtoC 1)) (Cmult w (Cdiv (cz bz w) (RtoC (IZR D))))) (Cminus (Cexp w) (P w)))).
  match goal with |- Cmod ?x <= _ => replace x with (Cdiv Nn (Cmult w (Cminus (RtoC 1) (Cexp w)))) end.
  2:{ unfold Nn. rewrite T, RtoC_mult. unfold CLi. field. repeat split; try apply DC; try apply FC; assumption. }
  assert (WE : Cmult w (Cminus (RtoC 1) (Cexp w)) <> RtoC 0) by (apply Cmult_neq_0; assumption).
  rewrite Cmod_div by exact WE.
  assert (LOW : Cmod w * Cmod w * (exp (- rho) * (2 / PI)) <= Cmod (Cmult w (Cminus (RtoC 1) (Cexp w)))).
  { rewrite Cmod_mult, Rmult_assoc. apply Rmult_le_compat_l; [exact W0|]. replace (Cminus (RtoC 1) (Cexp w)) with (Copp (Cminus (Cexp w) (RtoC 1))) by ring. rewrite Cmod_opp. lra. }
  assert (UPN : Cmod Nn <= epsN bz * (Cmod w * Cmod w)).
  { unfold Nn. rewrite (cz_low 2 _ w (zerosb_ok 2 _ Hz)). rewrite skipn2.
    eapply Rle_trans; [apply Cmod_triangle|]. unfold epsN. rewrite Rmult_plus_distr_r. apply Rplus_le_compat.
    - rewrite Cmod_div by (apply RtoC_neq; apply Rmult_integral_contrapositive_currified; lra). rewrite Cmod_mult, Cmod_R, Rabs_pos_eq by (apply Rmult_le_pos; lra).
      cbn [Cpow]. rewrite !Cmod_mult, Cmod_1, Rmult_1_r. pose proof (ub_ok p q (tl (tl (nzl D bz M))) w Hq Hp Hw) as B.
      unfold Rdiv. rewrite (Rmult_comm (Cmod w * Cmod w)), Rmult_assoc, (Rmult_comm (Cmod w * Cmod w)), <- Rmult_assoc. apply Rmult_le_compat_r; [apply Rmult_le_pos; exact W0|].
      apply Rmult_le_compat_r; [left; apply Rinv_0_lt_compat, Rmult_lt_0_compat; assumption|exact B].
    - rewrite Cmod_mult, Rmult_assoc. apply Rmult_le_compat; [apply Cmod_ge_0|apply Cmod_ge_0| |].
      + eapply Rle_trans; [apply Cmod_triangle|]. unfold Cminus. pose proof (Cmod_triangle w (Copp (RtoC 1))) as T1. rewrite Cmod_opp, Cmod_1 in T1.
        rewrite Cmod_mult, Cmod_div by apply DC. rewrite Cmod_R, Rabs_pos_eq by lra. pose proof (ub_ok p q bz w Hq Hp Hw) as B.
        assert (B2 : Cmod (cz bz w) / IZR D <= IZR (ub p q bz) / IZR D) by (apply Rmult_le_compat_r; [left; apply Rinv_0_lt_compat; assumption|exact B]).
        assert (Cmod w * (Cmod (cz bz w) / IZR D) <= rho * (IZR (ub p q bz) / IZR D)).
        { apply Rmult_le_compat; [exact W0| |exact Hw|exact B2]. apply Rmult_le_pos; [apply Cmod_ge_0|left; apply Rinv_0_lt_compat; assumption]. }
        lra.
      + eapply Rle_trans; [apply P_err, Hw|]. rewrite !Rmult_assoc. apply Rmult_le_compat_l; [left; apply exp_pos|]. apply Rmult_le_compat_l; [left; apply inv_fact_pos|].
        replace (S M) with (M - 1 + 2)%nat by lia. rewrite pow_add. cbn [pow]. rewrite Rmult_1_r. apply Rmult_le_compat_r; [apply Rmult_le_pos; exact W0|]. apply pow_incr. split; assumption. }
  assert (EP : 0 <= epsN bz). { assert (Q : 0 <= epsN bz * (Cmod w * Cmod w)) by (eapply Rle_trans; [apply Cmod_ge_0|exact UPN]). apply Rnot_lt_le. intros LT. assert (WW : 0 < Cmod w * Cmod w) by (apply Rmult_lt_0_compat; assumption). assert (0 < - epsN bz * (Cmod w * Cmod w)) by (apply Rmult_lt_0_compat; lra). lra. }
  apply Rle_div_l; [eapply Rlt_le_trans; [|exact LOW]; apply Rmult_lt_0_compat; [apply Rmult_lt_0_compat; assumption|exact KP]|].
  eapply Rle_trans; [exact UPN|]. apply Rle_trans with (epsN bz * (exp rho * (PI / 2)) * (Cmod w * Cmod w * (exp (- rho) * (2 / PI)))).
  - right. assert (EE : exp rho * exp (- rho) = 1) by (rewrite <- exp_plus, Rplus_opp_r, exp_0; reflexivity).
    replace (epsN bz * (exp rho * (PI / 2)) * (Cmod w * Cmod w * (exp (- rho) * (2 / PI)))) with (epsN bz * (Cmod w * Cmod w) * (exp rho * exp (- rho)) * (PI / 2 * (2 / PI))) by ring. rewrite EE. field. lra.
  - apply Rmult_le_compat_l; [|exact LOW]. apply Rmult_le_pos; [exact EP|]. apply Rmult_le_pos; [left; apply exp_pos|lra].
Qed.
End Res.
