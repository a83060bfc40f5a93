(** * The exact dilogarithm expansions on slightly enlarged regions

    A floating-point branch test can place a point a few units in the last place on the other side of a branch boundary.
    The expansions of [CLi2_acc] are proved here with room to spare on both sides.  Nothing here mentions floats. *)
From Coq Require Import ZArith Reals List Bool Lra Lia Psatz.
From Coquelicot Require Import Coquelicot.
From Interval Require Import Tactic.
From Verif Require Import Num NumR Spec Eval_R Consts Cplx Ccalc CLi CLi_disc CLi_inv Cpoly CLi_unity CLi_T Polylog Fourier Clausen CLi_ref CLi_region Rest Model_LiR Model_LiC Proof_Horner CLi_code CLi_eval CLi_dev CLi_rest CLi_acc CLi_inst CLi2_acc CLi2_inst.
Import ListNotations.
Local Open Scope R_scope.

Lemma log_region2 v : 499 / 1000 <= fst v -> Cmod v * Cmod v <= 2 * fst v + / 1000 -> Cmod (Clog v) <= 11 / 10.
Proof.
  intros H1 H2. assert (N : v <> RtoC 0) by (intros E; rewrite E in H1; cbn in H1; lra).
  assert (P : 0 < Cmod v) by (apply Cmod_gt_0, N). destruct (polar v N) as [E1 _].
  apply sq_le; [apply Cmod_ge_0|lra|]. rewrite Cmod_Clog. set (r := Cmod v) in *. set (f := Carg v) in *. set (c := cos f) in *.
  assert (A2 : 499 / 1000 <= r * c) by (rewrite <- E1; exact H1). assert (c1 : c <= 1) by apply COS_bound.
  assert (c0 : 0 < c) by (apply Rnot_le_lt; intros Q; nra).
  assert (r1 : 499 / 1000 <= r) by nra.
  assert (A1 : r <= 2 * c + 21 / 10000). { rewrite E1 in H2. apply Rmult_le_reg_l with r; [exact P|]. nra. }
  assert (C1 : 498 / 1000 <= c) by nra.
  assert (L1 : ln r <= ln (2 * c + 5 / 1000)) by (apply ln_le; lra).
  assert (L2 : - ln (2 * c + 5 / 1000) <= ln r). { rewrite <- ln_Rinv by lra. apply ln_le; [apply Rinv_0_lt_compat; lra|]. apply Rmult_le_reg_r with (2 * c + 5 / 1000); [lra|]. rewrite Rinv_l by lra. nra. }
  assert (LL : ln r * ln r <= ln (2 * c + 5 / 1000) * ln (2 * c + 5 / 1000)) by nra.
  assert (C : c = cos (Rabs f)) by (unfold c, Rabs; destruct (Rcase_abs f); [rewrite cos_neg|]; reflexivity).
  assert (FF : f * f = Rabs f * Rabs f) by (rewrite <- Rabs_mult, Rabs_pos_eq by nra; reflexivity).
  pose proof (Carg_abs v) as FA. fold f in FA.
  rewrite FF. pose proof (Rabs_pos f) as F0. set (x := Rabs f) in *. clearbody x.
  assert (X : x <= 10497 / 10000). { apply Rnot_lt_le. intros Q. assert (K : cos x < cos (10497 / 10000)) by (apply cos_decreasing_1; try lra; interval). assert (cos (10497 / 10000) <= 498 / 1000) by interval. lra. }
  rewrite C in LL. assert (I : ln (2 * cos x + 5 / 1000) * ln (2 * cos x + 5 / 1000) + x * x <= 12 / 10) by (interval with (i_bisect x, i_prec 40)). lra.
Qed.

(** the ray condition with 49/100 instead of 1/2 *)
Definition goodk (rho : R) (z : C) : Prop := forall t, 0 <= t <= 1 ->
  slit (Cmult (RtoC t) z) /\ Cmod (U (Cmult (RtoC t) z)) <= rho /\ 49 / 100 <= Cmod (Cminus (RtoC 1) (Cmult (RtoC t) z)).
Definition regionK (z : C) : Prop := Cmod z * Cmod z <= 1001 / 1000 /\ fst z <= 501 / 1000.
Lemma regionK_1m z : regionK z -> 499 / 1000 <= fst (Cminus (RtoC 1) z) /\ Cmod (Cminus (RtoC 1) z) * Cmod (Cminus (RtoC 1) z) <= 2 * fst (Cminus (RtoC 1) z) + / 1000.
Proof. intros [H1 H2]. rewrite Cmod_sq in *. destruct z as [a b]. cbn in *. split; [lra|]. nra. Qed.
Lemma regionK_pt z : regionK z -> slit z /\ Cmod (U z) <= 11 / 10 /\ 49 / 100 <= Cmod (Cminus (RtoC 1) z).
Proof.
  intros H. pose proof (regionK_1m z H) as [B1 B2]. destruct H as [H1 H2]. split; [left; lra|]. split.
  - unfold U. rewrite Cmod_opp. apply log_region2; assumption.
  - apply Rle_trans with (499 / 1000); [lra|]. eapply Rle_trans; [exact B1|]. eapply Rle_trans; [apply Rle_abs|apply Cmod_fst].
Qed.
Lemma regionK_good z : regionK z -> goodk (11 / 10) z.
Proof.
  intros [H1 H2] t Ht. apply regionK_pt. split.
  - rewrite Cmod_scal, Rabs_pos_eq by lra. replace (t * Cmod z * (t * Cmod z)) with ((t * t) * (Cmod z * Cmod z)) by ring. assert (0 <= t * t <= 1) by nra. assert (0 <= Cmod z * Cmod z) by (pose proof (Cmod_ge_0 z); nra). nra.
  - destruct z as [a b]. cbn in *. replace (t * a - 0 * b) with (t * a) by ring. nra.
Qed.
Lemma U_smallk rho z : goodk rho z -> forall t, 0 <= t <= 1 -> Cmod (U (Cmult (RtoC t) z)) <= 21 / 10 * t * Cmod z.
Proof.
  intros G t Ht. pose proof (Cmod_ge_0 z) as Z0.
  assert (U0 : U (Cmult (RtoC 0) z) = RtoC 0).
  { unfold U. rewrite Cmult_0_l. replace (Cminus (RtoC 1) (RtoC 0)) with (RtoC 1) by ring. rewrite Clog_pos, ln_1 by lra. ring. }
  assert (M := cmv_M (fun s => U (Cmult (RtoC s) z)) (fun s => Cdiv z (Cminus (RtoC 1) (Cmult (RtoC s) z))) (21 / 10 * Cmod z) 0 t).
  cbv beta in M. rewrite U0 in M. replace (Cminus (U (Cmult (RtoC t) z)) (RtoC 0)) with (U (Cmult (RtoC t) z)) in M by ring.
  replace (21 / 10 * t * Cmod z) with (21 / 10 * Cmod z * (t - 0)) by ring. apply M.
  - lra.
  - intros s Hs. apply U_der, G. lra.
  - intros s Hs. eapply cder_cont, U_der, G. lra.
  - intros s Hs. destruct (G s ltac:(lra)) as (S1 & _ & B). rewrite Cmod_div by (apply offneg_neq, slit_1m, S1).
    unfold Rdiv. rewrite Rmult_comm. apply Rmult_le_compat_r; [exact Z0|]. apply Rle_trans with (/ (49 / 100)); [apply Rinv_le_contravar; lra|lra].
Qed.
Theorem T_boundk (Q : nat -> list R) rho eps N : Q 1%nat = [0; 1] -> (forall n, (2 <= n <= N)%nat -> hd 0 (Q n) = 0) -> 0 <= eps ->
  (forall n u, (1 <= n < N)%nat -> Cmod u <= rho -> Cmod (resT Q n u) <= eps * Cmod u) ->
  forall z, goodk rho z -> forall n, (1 <= n <= N)%nat ->
  Cmod (Cminus (CLi n z) (cpev (Q n) (U z))) <= 21 / 10 * (INR n - 1) * eps * Cmod z.
Proof.
  intros Q1 Q0 E0 R z G n Hn. pose proof (Cmod_ge_0 z) as Z0.
  assert (U0 : U (Cmult (RtoC 0) z) = RtoC 0).
  { unfold U. rewrite Cmult_0_l. replace (Cminus (RtoC 1) (RtoC 0)) with (RtoC 1) by ring. rewrite Clog_pos, ln_1 by lra. ring. }
  enough (H : forall n, (1 <= n <= N)%nat -> forall t, 0 <= t <= 1 -> Cmod (Cminus (CLi n (Cmult (RtoC t) z)) (cpev (Q n) (U (Cmult (RtoC t) z)))) <= 21 / 10 * (INR n - 1) * eps * Cmod z * t).
  { specialize (H n Hn 1 ltac:(lra)). rewrite Cmult_1_l, Rmult_1_r in H. exact H. }
  clear n Hn. induction n as [|n IH]; intros Hn t Ht; [lia|]. destruct (Nat.eq_dec n 0) as [->|Nn].
  - replace (cpev (Q 1%nat) (U (Cmult (RtoC t) z))) with (U (Cmult (RtoC t) z)).
    2:{ rewrite Q1. cbn [cpev]. ring. }
    unfold U. cbn [CLi]. match goal with |- Cmod ?x <= _ => replace x with (RtoC 0) by ring end. rewrite Cmod_0. cbn [INR]. lra.
  - assert (Nn' : (1 <= n <= N)%nat) by lia. specialize (IH Nn').
    set (f := fun s => Cminus (CLi (S n) (Cmult (RtoC s) z)) (cpev (Q (S n)) (U (Cmult (RtoC s) z)))).
    assert (f0 : f 0 = RtoC 0).
    { unfold f. rewrite U0. rewrite Cmult_0_l, CLi_0. specialize (Q0 (S n) ltac:(lia)). destruct (Q (S n)) as [|c l]; [cbn; ring|]. cbn in Q0. subst c. cbn [cpev]. ring. }
    change (Cmod (f t) <= 21 / 10 * (INR (S n) - 1) * eps * Cmod z * t).
    replace (f t) with (Cminus (f t) (f 0)) by (rewrite f0; ring). replace (21 / 10 * (INR (S n) - 1) * eps * Cmod z * t) with (21 / 10 * (INR (S n) - 1) * eps * Cmod z * (t - 0)) by ring.
    apply (cmv_M f (fun s => Cdiv (Cplus (Cminus (CLi n (Cmult (RtoC s) z)) (cpev (Q n) (U (Cmult (RtoC s) z)))) (resT Q n (U (Cmult (RtoC s) z)))) (RtoC s))).
    + lra.
    + intros s Hs. destruct (G s ltac:(lra)) as (S1 & S2 & S3). pose proof (offneg_neq _ (slit_1m _ S1)) as N1. assert (Ns : RtoC s <> RtoC 0) by (apply RtoC_neq; lra).
      unfold f. eapply cder_eq; [|apply cder_minus; [apply CLi_der; [lra|exact S1]|apply dl_der, U_der, S1]].
      unfold resT. rewrite Cexp_U by exact S1. field. split; assumption.
    + intros s Hs. destruct (G s ltac:(lra)) as (S1 & S2 & S3). unfold f. apply ccont_minus; [apply CLi_ray_cont; [lra|exact S1]|]. apply cpev_cont. eapply cder_cont, U_der, S1.
    + intros s Hs. destruct (G s ltac:(lra)) as (S1 & S2 & S3). assert (Ns : RtoC s <> RtoC 0) by (apply RtoC_neq; lra). rewrite Cmod_div by exact Ns. rewrite Cmod_R, Rabs_pos_eq by lra.
      apply Rle_div_l; [lra|]. eapply Rle_trans; [apply Cmod_triangle|].
      eapply Rle_trans; [apply Rplus_le_compat; [apply IH; lra|apply R; [lia|exact S2]]|].
      pose proof (U_smallk rho z G s ltac:(lra)) as US. apply Rmult_le_compat_l with (r := eps) in US; [|exact E0]. rewrite S_INR. lra.
Qed.
Lemma T_refk n (z : C) : (1 <= n <= 6)%nat -> goodk (11 / 10) z -> Cmod (Cminus (CLi n z) (cpev (Qu n) (U z))) <= 4000 / 10 ^ 44 * Cmod z.
Proof.
  intros Hn G. eapply Rle_trans; [apply (T_boundk Qu (11 / 10) (300 / 10 ^ 44) 6)|].
  - unfold Qu, zl, qz. cbn [map]. pose proof DDpos. f_equal; [|f_equal]; field; lra.
  - intros k Hk. unfold Qu, zl. do 7 (destruct k as [|k]; [try lia; cbn [qz map hd]; unfold Rdiv; ring|]). lia.
  - apply Rmult_le_pos; [lra|]. left. apply Rinv_0_lt_compat, pow_lt. lra.
  - intros k u Hk Hu. unfold resT, Qu. apply (chkT_ok 11 10 40 44); [lia|lia|lia|lra| |exact Hu].
    pose proof qz_ok as Q. apply forallb_forall with (x := k) in Q; [exact Q|]. do 6 (destruct k as [|k]; [cbn; tauto || lia|]). lia.
  - exact G.
  - exact Hn.
  - apply Rmult_le_compat_r; [apply Cmod_ge_0|]. assert (INR n <= 6) by (replace 6 with (INR 6) by (cbn; ring); apply le_INR; lia).
    assert (0 < / 10 ^ 44) by (apply Rinv_0_lt_compat, pow_lt; lra). unfold Rdiv. replace (21 * / 10 * (INR n - 1) * (300 * / 10 ^ 44)) with ((630 * (INR n - 1)) * / 10 ^ 44) by lra. apply Rmult_le_compat_r; lra.
Qed.
Lemma T_anyk n Tl cT z : (1 <= n <= 6)%nat -> goodk (11 / 10) z -> (forall u, Cmod u <= 11 / 10 -> Cmod (Cminus (cpev (map rq Tl) u) (cpev (zl DD (tl (qz n))) u)) <= cT) ->
  Cmod (Cminus (cpev (map rq ((0, 1)%Z :: Tl)) (U z)) (CLi n z)) <= (21 / 10 * cT + / 10 ^ 37) * Cmod z.
Proof.
  intros Hn G HT. pose proof (T_refk n z Hn G) as R. pose proof (G 1 ltac:(lra)) as (_ & G2 & _). replace (Cmult (RtoC 1) z) with z in G2 by ring.
  pose proof (U_smallk _ z G 1 ltac:(lra)) as G3. replace (Cmult (RtoC 1) z) with z in G3 by ring. rewrite Qu_hd in R by exact Hn. cbn [map cpev]. rewrite rq0. specialize (HT _ G2).
  set (u := U z) in *. set (A := cpev (map rq Tl) u) in *. set (B := cpev (zl DD (tl (qz n))) u) in *. set (Li := CLi n z) in *.
  replace (Cminus (Cplus (RtoC 0) (Cmult u A)) Li) with (Cminus (Cmult u (Cminus A B)) (Cminus Li (Cmult u B))) by ring.
  eapply Rle_trans; [apply Cmod_triangle|]. rewrite Cmod_opp, Cmod_mult. pose proof (Cmod_ge_0 z).
  assert (M : Cmod u * Cmod (Cminus A B) <= 21 / 10 * 1 * Cmod z * cT) by (apply Rmult_le_compat; [apply Cmod_ge_0|apply Cmod_ge_0|exact G3|exact HT]).
  assert (K : 4000 / 10 ^ 44 * Cmod z <= / 10 ^ 37 * Cmod z) by (apply Rmult_le_compat_r; lra). lra.
Qed.

(** ** the three expansions of the double precision table *)
Definition Qd (u : C) : C := cpev (map rq ((0, 1)%Z :: (1, 1)%Z :: T2 T_cLi2_d_bf)) u.
Lemma HTd u : Cmod u <= 11 / 10 -> Cmod (Cminus (cpev (map rq ((1, 1)%Z :: T2 T_cLi2_d_bf)) u) (cpev (zl DD (tl (qz 2))) u)) <= 8 / 10 ^ 17.
Proof. intros H. exact (useT 2 _ 8 17 u ltac:(lia) T_cLi2_d H). Qed.
Lemma HNd w : Cmod w <= 11 / 10 -> Cmod (Cminus (cpev (map rq (T2n T_cLi2_d_bf)) w) (cpev (ik 2 (zl DD bz)) w)) <= 66 / 10 ^ 18.
Proof. intros H. exact (useN _ 66 18 w ltac:(lia) N_cLi2_d H). Qed.
Theorem Q_direct z : regionK z -> Cmod (U z) <= 11 / 10 /\ Cmod (Cminus (Qd (U z)) (CLi 2 z)) <= 2 / 10 ^ 16.
Proof.
  intros H. pose proof (regionK_good z H) as G. split; [apply (regionK_pt z H)|]. eapply Rle_trans; [apply (T_anyk 2 _ (8 / 10 ^ 17) z ltac:(lia) G HTd)|].
  destruct H as [H _]. assert (Cmod z <= 11 / 10) by (pose proof (Cmod_ge_0 z); nra). apply Rle_trans with ((21 / 10 * (8 / 10 ^ 17) + / 10 ^ 37) * (11 / 10)); [apply Rmult_le_compat_l; lra|lra].
Qed.
Lemma inv_regionK z : z <> RtoC 0 -> 9995 / 10000 <= Cmod z * Cmod z -> 2 * fst z <= Cmod z * Cmod z * (1001 / 1000) -> regionK (Cinv z).
Proof.
  intros Z0 H1 H2. pose proof (Cmod_ge_0 z). assert (P : 0 < Cmod z) by (apply Cmod_gt_0, Z0). split.
  - rewrite Cmod_inv by exact Z0. rewrite <- Rinv_mult. apply Rle_trans with (/ (9995 / 10000)); [apply Rinv_le_contravar; lra|lra].
  - rewrite Cmod_sq in H1, H2. destruct z as [a b]. cbn [fst snd] in *. unfold Cinv. cbn [fst snd]. apply Rmult_le_reg_r with (a ^ 2 + b ^ 2); [nra|].
    unfold Rdiv at 1. rewrite Rmult_assoc, Rinv_l by nra. nra.
Qed.
Theorem Q_inv z : snd z <> 0 -> 9995 / 10000 <= Cmod z * Cmod z -> 2 * fst z <= Cmod z * Cmod z * (1001 / 1000) ->
  Cmod (U (Cinv z)) <= 11 / 10 /\
  Cmod (Cminus (Cminus (Copp (Qd (U (Cinv z)))) (Cplus (Cmult (RtoC (/ 2)) (Cmult (Clog (Copp z)) (Clog (Copp z)))) (RtoC (PI * PI / 6)))) (CLi 2 z)) <= 2 / 10 ^ 16.
Proof.
  intros H H1 H2. assert (Z0 : z <> RtoC 0) by (intros E; apply H; rewrite E; reflexivity). pose proof (inv_regionK z Z0 H1 H2) as RG.
  destruct (Q_direct _ RG) as [Q1 Q2]. split; [exact Q1|]. pose proof (CLi_inversion 2 z (or_intror H)) as IV. rewrite restC_list in IV by lia.
  set (y := Cinv z) in *. set (Q := Qd (U y)) in *. set (L := Clog (Copp z)) in *. cbn [rlist cpev] in *. replace ((-1) ^ 2) with 1 in IV by ring.
  set (Li := CLi 2 z) in *. set (Lj := CLi 2 y) in *.
  match goal with |- Cmod ?x <= _ => replace x with (Copp (Cminus Q Lj)) end; [rewrite Cmod_opp; exact Q2|].
  replace Li with (Cminus (Cplus Li (Cmult (RtoC 1) Lj)) Lj) by ring. rewrite IV. rewrite !RtoC_opp. ring.
Qed.
Theorem Q_near z : snd z <> 0 -> Cmod (Clog z) <= 11 / 10 ->
  Cmod (Cminus (Cplus (Copp (Qd (Copp (Clog z)))) (Cplus (Cmult (Copp (Clog z)) (Clog (Cminus (RtoC 1) z))) (RtoC (PI * PI / 6)))) (CLi 2 z)) <= 10 / 10 ^ 17.
Proof.
  intros H W. assert (Z0 : z <> RtoC 0) by (intros E; apply H; rewrite E; reflexivity). destruct (Clog_spec z Z0) as [EX RA].
  pose proof (Clog_im_neq z H) as WN. assert (RB : Rabs (snd (Clog z)) <= PI) by (apply Rabs_le; lra).
  pose proof (unity_any 0 _ ltac:(lia) WN RB W) as U1. pose proof (unity_any 1 _ ltac:(lia) WN RB W) as U2. pose proof (HNd _ W) as N1.
  assert (LR : CLi 1 z = Copp (Clog (Cminus (RtoC 1) z))) by reflexivity.
  unfold EU in U1, U2. rewrite EX in U1, U2. rewrite LR in U1. pose proof (IG12 (zl DD bz) (Clog z)) as IGE. unfold Qd. set (bf := T_cLi2_d_bf) in *. clearbody bf. cbn [map cpev]. rewrite rq0. rewrite T2n_ok.
  change (@map (Z * Z) R rq (T2n bf)) with (map rq (T2n bf)) in *. rewrite rq1. set (w := Clog z) in *. set (lm := Clog (Cminus (RtoC 1) z)) in *.
  assert (LM : Lm 2 w = Cplus w (Cmult w (Lm 1 w))).
  { unfold Lm. replace (inv_fact 1) with 1 by (unfold inv_fact; cbn; field). replace (inv_fact 0) with 1 by (unfold inv_fact; cbn; field). replace (Hm 1) with 1 by (cbn; field). replace (Hm 0) with 0 by reflexivity. change (Cpow w 0) with (RtoC 1). change (Cpow w 1) with (Cmult w (RtoC 1)). ring. }
  rewrite LM in U2. set (g1 := cpev (IG (zl DD bz) 1) w) in *. set (g2 := cpev (IG (zl DD bz) 2) w) in *. set (l1 := Lm 1 w) in *. set (X := cpev (map rq (T2n bf)) w) in *. set (Y := cpev (ik 2 (zl DD bz)) w) in *. set (Li := CLi 2 z) in *.
  match goal with |- Cmod ?x <= _ => replace x
    with (Cplus (Cplus (Copp (Cmult (Cmult w w) (Cminus X Y))) (Cmult w (Cminus (Cminus (Copp lm) g1) l1))) (Copp (Cminus (Cminus Li g2) (Cplus w (Cmult w l1))))) end.
  - eapply Rle_trans; [apply Cmod_triangle|]. pose proof (Cmod_triangle (Copp (Cmult (Cmult w w) (Cminus X Y))) (Cmult w (Cminus (Cminus (Copp lm) g1) l1))) as T1.
    rewrite !Cmod_opp, !Cmod_mult in T1. rewrite Cmod_opp. pose proof (Cmod_ge_0 w). pose proof (Cmod_ge_0 (Cminus X Y)).
    assert (M1 : Cmod w * Cmod w * Cmod (Cminus X Y) <= 121 / 100 * (66 / 10 ^ 18)) by (apply Rmult_le_compat; [nra|assumption|nra|exact N1]).
    assert (M2 : Cmod w * Cmod (Cminus (Cminus (Copp lm) g1) l1) <= 11 / 10 * / 10 ^ 37) by (apply Rmult_le_compat; [assumption|apply Cmod_ge_0|exact W|exact U1]).
    lra.
  - replace (PI * PI / 6) with (ReLi 2 1) by (rewrite basel; field).
    replace (RtoC (ReLi 2 1)) with (Cplus (Cminus (RtoC (ReLi 2 1)) (Cmult (Cmult w w) Y)) (Cmult (Cmult w w) Y)) by ring. rewrite <- IGE. ring.
Qed.
