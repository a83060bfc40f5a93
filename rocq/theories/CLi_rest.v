(** * The inversion remainders the complex code adds, against the true remainder *)
From Coq Require Import ZArith Reals List Bool Lra Lia Psatz.
From Coquelicot Require Import Coquelicot.
From Interval Require Import Tactic.
From Verif Require Import Num NumR Spec Eval_R Consts Cplx Ccalc CLi CLi_disc CLi_inv Cpoly CLi_unity CLi_T Polylog Polylog_eqs Fourier CLi_region Rest CLi_code CLi_eval CLi_dev.
Import ListNotations.
Local Open Scope R_scope.

Definition rlist (n : nat) (p z2 : R) : list R := let p2 := p * p in let p4 := p2 * p2 in let p6 := p2 * p4 in match n with
  | 2%nat => [- (p2 / 6); 0; - / 2]
  | 3%nat => [0; - z2; 0; - / 6]
  | 4%nat => [- (7 * p4 / 360); 0; - (30 * p2 / 360); 0; - (15 / 360)]
  | 5%nat => [0; - (7 * p4 / 360); 0; - (10 * p2 / 360); 0; - (3 / 360)]
  | _ => [- (31 * p6 / 15120); 0; - (7 * p4 / 720); 0; - (p2 / 144); 0; - / 720]
  end.
Ltac leq := repeat (apply f_equal2; [|]); try reflexivity; try (unfold rq; cbn [fst snd]; field).
Lemma form3 (x z : R) L : Cmult (Copp L) (Cplus (Cmult (RtoC x) (Cmult L L)) (RtoC z)) = cpev [0; - z; 0; - x] L.
Proof. cbn [cpev]. rewrite !RtoC_opp. ring. Qed.
Lemma form4 (x y z t : R) L : Cmult (RtoC x) (Cplus (RtoC y) (Cmult (Cmult L L) (Cminus (RtoC z) (Cmult (RtoC t) (Cmult L L))))) = cpev [x * y; 0; x * z; 0; - (x * t)] L.
Proof. cbn [cpev]. rewrite RtoC_opp, !RtoC_mult. ring. Qed.
Lemma form5 (x y z t : R) L : Cmult (Cmult (RtoC x) L) (Cplus (RtoC y) (Cmult (Cmult L L) (Cplus (RtoC z) (Cmult (RtoC t) (Cmult L L))))) = cpev [0; x * y; 0; x * z; 0; x * t] L.
Proof. cbn [cpev]. rewrite !RtoC_mult. ring. Qed.
Lemma form6 (x y z t : R) L : Cplus (RtoC x) (Cmult (Cmult L L) (Cplus (RtoC y) (Cmult (Cmult L L) (Cminus (RtoC z) (Cmult (RtoC t) (Cmult L L)))))) = cpev [x; 0; y; 0; z; 0; - t] L.
Proof. cbn [cpev]. rewrite RtoC_opp. ring. Qed.
Lemma restq_list n p z2 L : (3 <= n <= 6)%nat -> restq n p z2 L = cpev (rlist n p z2) L.
Proof.
  intros H. assert (C : n = 3%nat \/ n = 4%nat \/ n = 5%nat \/ n = 6%nat) by lia.
  destruct C as [->|[->|[->| ->]]]; cbn [restq rlist]; rewrite ?form3, ?form4, ?form5, ?form6; apply (f_equal (fun l => cpev l L)); leq.
Qed.
Lemma Csum_cpev (a : nat -> R) L : forall n s, Csum (fun m => Cmult (RtoC (a (s + m)%nat)) (Cpow L m)) n = cpev (map a (seq s n)) L.
Proof.
  induction n as [|n IH]; intros s; [reflexivity|]. rewrite Csum_shift. cbn [seq map cpev]. rewrite <- IH. rewrite Nat.add_0_r. rewrite Csum_scal.
  replace (Csum (fun m => Cmult (RtoC (a (s + S m)%nat)) (Cpow L (S m))) n) with (Csum (fun m => Cmult L (Cmult (RtoC (a (S s + m)%nat)) (Cpow L m))) n); [change (Cpow L 0) with (RtoC 1); rewrite Cmult_1_r; reflexivity|].
  clear. induction n as [|n IH]; [reflexivity|]. cbn [Csum]. rewrite IH. f_equal. replace (s + S n)%nat with (S s + n)%nat by lia. cbn [Cpow]. ring.
Qed.
Lemma eta2 : ReLi 2 (-1) = - (PI * PI / 12). Proof. pose proof (ReLi_at_m1 2 ltac:(lia)) as H. rewrite basel in H. lra. Qed.
Lemma eta4 : ReLi 4 (-1) = - (7 * (PI * PI * (PI * PI)) / 720). Proof. pose proof (ReLi_at_m1 4 ltac:(lia)) as H. rewrite zeta4 in H. lra. Qed.
Lemma eta6 : ReLi 6 (-1) = - (31 * (PI * PI * (PI * PI * (PI * PI))) / 30240). Proof. pose proof (ReLi_at_m1 6 ltac:(lia)) as H. rewrite zeta6 in H. lra. Qed.
Lemma restC_list n L : (2 <= n <= 6)%nat -> restC neg_eta_true inv_fact n L = cpev (rlist n PI (PI * PI / 6)) L.
Proof.
  intros H. unfold restC. etransitivity; [exact (Csum_cpev (fun m => gam neg_eta_true (n - m) * inv_fact m) L (S n) 0)|]. apply (f_equal (fun l => cpev l L)).
  assert (C : n = 2%nat \/ n = 3%nat \/ n = 4%nat \/ n = 5%nat \/ n = 6%nat) by lia. unfold neg_eta_true, inv_fact.
  destruct C as [->|[->|[->|[->| ->]]]]; cbn [seq map Nat.sub rlist]; unfold gam; cbn [Nat.eqb Nat.even]; rewrite ?eta2, ?eta4, ?eta6; cbn [fact Nat.mul Nat.add]; rewrite !INR_IZR_INZ; cbn [Z.of_nat Pos.of_succ_nat Pos.succ]; leq.
Qed.
(** ** perturbation *)
Fixpoint Sabs (l : list R) : R := match l with [] => 0 | c :: l' => Rabs c + Sabs l' end.
Lemma Sabs_pos l : 0 <= Sabs l. Proof. induction l as [|c l IH]; cbn [Sabs]; [lra|]. pose proof (Rabs_pos c). lra. Qed.
Fixpoint Bd (d : R) (l l' : list R) : R := match l, l' with c :: m, c' :: m' => Rabs (c - c') + d * Sabs m + Bd d m m' | _, _ => 0 end.
Lemma Sabs_ok M l : 1 <= M -> forall k L, (length l <= S k)%nat -> Cmod L <= M -> Cmod (cpev l L) <= Sabs l * M ^ k.
Proof.
  intros HM. induction l as [|c l IH]; intros k L Hk HL.
  - cbn [cpev Sabs]. rewrite Cmod_0. lra.
  - cbn [cpev Sabs]. cbn [length] in Hk. eapply Rle_trans; [apply Cmod_triangle|]. rewrite Cmod_mult, Cmod_R. assert (P1 : 1 <= M ^ k) by (apply pow_R1_Rle; exact HM).
    pose proof (Rabs_pos c). pose proof (Cmod_ge_0 L). pose proof (Cmod_ge_0 (cpev l L)). pose proof (Sabs_pos l).
    assert (A : Rabs c * 1 <= Rabs c * M ^ k) by (apply Rmult_le_compat_l; lra).
    assert (B : Cmod L * Cmod (cpev l L) <= Sabs l * M ^ k).
    { destruct l as [|c' l']; [cbn [cpev Sabs]; rewrite Cmod_0; lra|]. destruct k as [|k]; [cbn [length] in Hk; lia|].
      apply Rle_trans with (M * (Sabs (c' :: l') * M ^ k)); [apply Rmult_le_compat; [assumption|assumption|assumption|apply IH; [lia|exact HL]]|]. cbn [pow]. right. ring. }
    lra.
Qed.
Lemma Bd_ok M d l : 1 <= M -> 0 <= d -> forall l' k L L', length l = length l' -> (length l <= S k)%nat -> Cmod L <= M -> Cmod L' <= M -> Cmod (Cminus L L') <= d ->
  Cmod (Cminus (cpev l L) (cpev l' L')) <= Bd d l l' * M ^ k.
Proof.
  intros HM Hd. induction l as [|c l IH]; intros [|c' l'] k L L' Hl Hk HL HL' HD; try discriminate.
  - cbn [cpev Bd]. replace (Cminus (RtoC 0) (RtoC 0)) with (RtoC 0) by ring. rewrite Cmod_0. lra.
  - cbn [cpev Bd]. cbn [length] in Hl, Hk. replace (Cminus (Cplus (RtoC c) (Cmult L (cpev l L))) (Cplus (RtoC c') (Cmult L' (cpev l' L')))) with (Cplus (Cplus (RtoC (c - c')) (Cmult (Cminus L L') (cpev l L))) (Cmult L' (Cminus (cpev l L) (cpev l' L')))) by (rewrite RtoC_minus; ring).
    eapply Rle_trans; [apply Cmod_triangle|]. pose proof (Cmod_triangle (RtoC (c - c')) (Cmult (Cminus L L') (cpev l L))) as T. rewrite !Cmod_mult, Cmod_R in *.
    assert (P1 : 1 <= M ^ k) by (apply pow_R1_Rle; exact HM). pose proof (Rabs_pos (c - c')). pose proof (Sabs_pos l).
    assert (A : Rabs (c - c') * 1 <= Rabs (c - c') * M ^ k) by (apply Rmult_le_compat_l; lra).
    assert (B : Cmod (Cminus L L') * Cmod (cpev l L) <= d * (Sabs l * M ^ k)) by (apply Rmult_le_compat; [apply Cmod_ge_0|apply Cmod_ge_0|exact HD|apply Sabs_ok; [exact HM|lia|exact HL]]).
    assert (E : Cmod L' * Cmod (Cminus (cpev l L) (cpev l' L')) <= Bd d l l' * M ^ k).
    { destruct l as [|c1 l1]; destruct l' as [|c1' l1']; try discriminate; [cbn [cpev Bd]; replace (Cminus (RtoC 0) (RtoC 0)) with (RtoC 0) by ring; rewrite Cmod_0; lra|]. destruct k as [|k]; [cbn [length] in Hk; lia|].
      apply Rle_trans with (M * (Bd d (c1 :: l1) (c1' :: l1') * M ^ k)); [apply Rmult_le_compat; [apply Cmod_ge_0|apply Cmod_ge_0|exact HL'|apply IH; [lia|lia|exact HL|exact HL'|exact HD]]|]. cbn [pow]. right. ring. }
    lra.
Qed.
Lemma Clog_neg z : snd z <> 0 -> Clog (Copp z) = lmz PI z.
Proof.
  intros H. assert (Z0 : z <> RtoC 0) by (intros E; apply H; rewrite E; reflexivity). symmetry. apply Clog_unique. destruct (Clog_spec z Z0) as [E R]. unfold lmz. unfold Clog in E, R. cbn [fst snd] in *.
  assert (S1 : forall a x, Cexp (a, x - PI) = Copp (Cexp (a, x))). { intros a x. unfold Cexp, Copp. cbn [fst snd]. replace (x - PI) with (- (PI - x)) by ring. rewrite cos_neg, sin_neg, Rtrigo_facts.cos_pi_minus, sin_PI_x. f_equal; ring. }
  assert (S2 : forall a x, Cexp (a, x + PI) = Copp (Cexp (a, x))). { intros a x. unfold Cexp, Copp. cbn [fst snd]. rewrite neg_cos, neg_sin. f_equal; ring. }
  destruct (Rlt_dec 0 (Carg z)) as [A|A]; (split; [rewrite ?S1, ?S2, E; reflexivity|]); cbn [snd]; [lra|].
  pose proof PI_RGT_0. assert (Carg z <> 0) by (pose proof (Clog_im_neq z H) as Q; unfold Clog in Q; exact Q). lra.
Qed.
Lemma lmz_near p z d : Rabs (p - PI) <= d -> Cmod (Cminus (lmz p z) (lmz PI z)) <= d.
Proof.
  intros H. unfold lmz. apply Rle_trans with (Rabs (p - PI)); [|exact H]. apply sq_le; [apply Cmod_ge_0|apply Rabs_pos|]. rewrite Cmod_sq. cbn [Cminus Cplus Copp fst snd].
  destruct (Rlt_dec 0 (Carg z)); cbn [fst snd]; unfold Rabs; destruct (Rcase_abs (p - PI)); right; ring.
Qed.
Theorem rest_dev_l n p z2 d c z : (2 <= n <= 6)%nat -> Rabs (p - PI) <= d -> d <= 1 -> Bd d (rlist n p z2) (rlist n PI (PI * PI / 6)) <= c ->
  Cmod (Cminus (cpev (rlist n p z2) (lmz p z)) (restC neg_eta_true inv_fact n (lmz PI z))) <= c * (1 + Cmod (lmz PI z)) ^ n.
Proof.
  intros Hn Hp Hd HB. rewrite restC_list by exact Hn. set (L := lmz PI z). pose proof (lmz_near p z d Hp) as N. fold L in N. pose proof (Cmod_ge_0 L).
  assert (HL : Cmod (lmz p z) <= 1 + Cmod L). { replace (lmz p z) with (Cplus (Cminus (lmz p z) L) L) by ring. eapply Rle_trans; [apply Cmod_triangle|]. lra. }
  assert (D0 : 0 <= d) by (eapply Rle_trans; [apply Rabs_pos|exact Hp]).
  eapply Rle_trans; [apply (Bd_ok (1 + Cmod L) d _ ltac:(lra) D0 _ n)|]; try assumption; try lra.
  - destruct n as [|[|[|[|[|[|n]]]]]]; reflexivity.
  - destruct n as [|[|[|[|[|[|[|n]]]]]]]; cbn [rlist length]; lia.
  - apply Rmult_le_compat_r; [apply pow_le; lra|exact HB].
Qed.
Theorem rest_dev n p z2 d c z : (2 <= n <= 6)%nat -> snd z <> 0 -> Rabs (p - PI) <= d -> d <= 1 -> Bd d (rlist n p z2) (rlist n PI (PI * PI / 6)) <= c ->
  Cmod (Cminus (cpev (rlist n p z2) (lmz p z)) (restC neg_eta_true inv_fact n (Clog (Copp z)))) <= c * (1 + Cmod (Clog (Copp z))) ^ n.
Proof. intros Hn H Hp Hd HB. rewrite Clog_neg by exact H. apply rest_dev_l with d; assumption. Qed.
