(** * A calculus of rounding errors for the complex operations of the double precision instance

    [CM z Z e]: both components of the float pair [z] are finite and [z] is within [e] of the complex number [Z]. *)
From Coq Require Import ZArith Reals Bool Lia Lra Psatz List.
From Coquelicot Require Import Coquelicot.
From Interval Require Import Tactic.
From Flocq Require Import Core Relative IEEE754.BinarySingleNaN.
From Verif Require Import Num NumR NumB NumB_facts Proof_Float Libm Fcalc Cplx Ccalc CLi CLi_T CLi_region CLi2_slack Ieee Li2_ieee Li34_ieee.
Import ListNotations.
Local Open Scope R_scope.

Lemma sq_add x y a b : Rabs x <= a -> Rabs y <= b -> x * x + y * y <= a * a + b * b.
Proof. intros H1 H2. rewrite <- (Rabs_pos_eq (x * x)), <- (Rabs_pos_eq (y * y)) by nra. rewrite !Rabs_mult. pose proof (Rabs_pos x). pose proof (Rabs_pos y). nra. Qed.
Lemma Cmod_comp (z : C) e : Rabs (fst z) <= e -> Rabs (snd z) <= e -> Cmod z <= 3 / 2 * e.
Proof. intros H1 H2. pose proof (Rabs_pos (fst z)). apply sq_le; [apply Cmod_ge_0|lra|]. rewrite Cmod_sq. pose proof (sq_add _ _ _ _ H1 H2). nra. Qed.
Lemma Cmod_comb (z : C) a b k w : 0 <= a -> 0 <= b -> 0 <= k -> Rabs (fst z) <= a + k * Rabs (fst w) -> Rabs (snd z) <= b + k * Rabs (snd w) -> Cmod z <= a + b + k * Cmod w.
Proof.
  intros Ha Hb Hk H1 H2. pose proof (Cmod_ge_0 w) as W0. pose proof (Cmod_fst w) as W1. pose proof (Cmod_snd w) as W2. pose proof (Rabs_pos (fst w)) as P1. pose proof (Rabs_pos (snd w)) as P2.
  assert (KW : 0 <= k * Cmod w) by (apply Rmult_le_pos; assumption). apply sq_le; [apply Cmod_ge_0|lra|]. rewrite Cmod_sq. eapply Rle_trans; [apply (sq_add _ _ _ _ H1 H2)|].
  assert (S : Rabs (fst w) * Rabs (fst w) + Rabs (snd w) * Rabs (snd w) = Cmod w * Cmod w) by (rewrite Cmod_sq, <- !Rabs_mult, !Rabs_pos_eq by nra; reflexivity).
  set (p := Rabs (fst w)) in *. set (q := Rabs (snd w)) in *. set (c := Cmod w) in *. clearbody p q c. clear - Ha Hb Hk W0 W1 W2 P1 P2 S.
  assert (A1 : a * (k * p) <= a * (k * c)) by (apply Rmult_le_compat_l; [assumption|apply Rmult_le_compat_l; assumption]).
  assert (A2 : b * (k * q) <= b * (k * c)) by (apply Rmult_le_compat_l; [assumption|apply Rmult_le_compat_l; assumption]).
  assert (A3 : 0 <= a * (k * c)) by (repeat apply Rmult_le_pos; assumption). assert (A4 : 0 <= b * (k * c)) by (repeat apply Rmult_le_pos; assumption). assert (A5 : 0 <= a * b) by (apply Rmult_le_pos; assumption).
  assert (A6 : k * p * (k * p) + k * q * (k * q) = k * c * (k * c)) by (replace (k * p * (k * p) + k * q * (k * q)) with (k * k * (p * p + q * q)) by ring; rewrite S; ring).
  replace ((a + k * p) * (a + k * p) + (b + k * q) * (b + k * q)) with (a * a + b * b + 2 * (a * (k * p)) + 2 * (b * (k * q)) + (k * p * (k * p) + k * q * (k * q))) by ring.
  replace ((a + b + k * c) * (a + b + k * c)) with (a * a + b * b + 2 * (a * b) + 2 * (a * (k * c)) + 2 * (b * (k * c)) + k * c * (k * c)) by ring. lra.
Qed.
(** the components of a product *)
Lemma comp_prod (z w : C) : Rabs (fst z * fst w) + Rabs (snd z * snd w) <= Cmod z * Cmod w /\ Rabs (fst z * snd w) + Rabs (snd z * fst w) <= Cmod z * Cmod w.
Proof.
  assert (G : forall a b c d, 0 <= a -> 0 <= b -> 0 <= c -> 0 <= d -> a * c + b * d <= sqrt (a * a + b * b) * sqrt (c * c + d * d)).
  { intros a b c d Ha Hb Hc Hd. rewrite <- sqrt_mult by nra. rewrite <- (sqrt_Rsqr (a * c + b * d)) by nra. apply sqrt_le_1; [apply Rle_0_sqr|nra|]. unfold Rsqr. pose proof (Rle_0_sqr (a * d - b * c)). unfold Rsqr in *. nra. }
  rewrite !Rabs_mult. rewrite !Cmod_alt.
  assert (E : forall x y : R, x * x + y * y = Rabs x * Rabs x + Rabs y * Rabs y) by (intros x y; rewrite <- !Rabs_mult, !Rabs_pos_eq by nra; reflexivity).
  rewrite (E (fst z) (snd z)), (E (fst w) (snd w)). pose proof (Rabs_pos (fst z)). pose proof (Rabs_pos (snd z)). pose proof (Rabs_pos (fst w)). pose proof (Rabs_pos (snd w)). split; [apply G; assumption|].
  rewrite (Rplus_comm (Rabs (fst w) * Rabs (fst w))). apply G; assumption.
Qed.
(** the logarithm is Lipschitz on a right half plane *)
Lemma Clog_lip k (a b : C) : 0 < k -> k <= fst a -> k <= fst b -> Cmod (Cminus (Clog b) (Clog a)) <= Cmod (Cminus b a) / k.
Proof.
  intros Hk Ha Hb. set (f := fun t : R => Cplus a (Cmult (RtoC t) (Cminus b a))).
  assert (F : forall t, 0 <= t <= 1 -> k <= fst (f t)). { intros t Ht. unfold f. destruct a as [a1 a2], b as [b1 b2]. cbn in *. nra. }
  assert (O : forall t, 0 <= t <= 1 -> offneg (f t)) by (intros t Ht; left; specialize (F t Ht); lra).
  assert (D : forall t, 0 <= t <= 1 -> cder (fun s => Clog (f s)) t (Cdiv (Cminus b a) (f t))) by (intros t Ht; apply cder_Clog; [apply O; exact Ht|apply cder_lin]).
  pose proof (cmv_M (fun s => Clog (f s)) (fun s => Cdiv (Cminus b a) (f s)) (Cmod (Cminus b a) / k) 0 1 ltac:(lra)) as M. cbv beta in M.
  replace (f 1) with b in M by (unfold f; ring). replace (f 0) with a in M by (unfold f; ring). replace (Cmod (Cminus b a) / k) with (Cmod (Cminus b a) / k * (1 - 0)) by ring. apply M.
  - intros t Ht. apply D. lra.
  - intros t Ht. eapply cder_cont, D. lra.
  - intros t Ht. rewrite Cmod_div by (apply offneg_neq, O; lra). unfold Rdiv. apply Rmult_le_compat_l; [apply Cmod_ge_0|]. apply Rinv_le_contravar; [exact Hk|].
    specialize (F t ltac:(lra)). eapply Rle_trans; [exact F|]. eapply Rle_trans; [apply Rle_abs|apply Cmod_fst].
Qed.

Lemma eta_tiny : 0 < eta <= u * bpow radix2 (-1000) / 1000000.
Proof.
  split; [apply bpow_gt_0|]. apply Rle_trans with (u * bpow radix2 (-1000) / 1048576).
  - unfold Fcalc.u, Fcalc.eta, Rdiv. change 1048576 with (bpow radix2 20). rewrite <- bpow_opp, <- !bpow_plus. apply bpow_le. lia.
  - unfold Rdiv. apply Rmult_le_compat_l; [apply Rmult_le_pos; [apply Rlt_le, u_b|apply bpow_ge_0]|lra].
Qed.
Lemma bm1000 : 0 < bpow radix2 (-1000) <= / 10 ^ 60.
Proof. split; [apply bpow_gt_0|]. eapply Rle_trans; [|apply Vlo_le]. apply bpow_le. lia. Qed.
Lemma eta_1 : 0 < eta <= u / 10 ^ 60.
Proof. pose proof eta_tiny. pose proof bm1000. pose proof u_b. split; [lra|]. assert (u * bpow radix2 (-1000) <= u * / 10 ^ 60) by (apply Rmult_le_compat_l; lra). assert (0 <= u * bpow radix2 (-1000)) by (apply Rmult_le_pos; lra). unfold Rdiv in *. lra. Qed.

Section C.
Variable L : libm 53 1024.
Hypothesis HL : libm_ok (Hp := Hp53) (He := He53) L.
Notation N := (B64 L).
Local Notation NN := (NumB 53 1024 Hp53 He53 L).
Definition val (z : cpx N) : C := (B2R (fst z), B2R (snd z)).
Definition finc (z : cpx N) : Prop := is_finite (fst z) = true /\ is_finite (snd z) = true.
Definition CM (z : cpx N) (Z : C) (e : R) : Prop := finc z /\ Cmod (Cminus (val z) Z) <= e.
Lemma big_le M : M <= 10 ^ 30 -> M <= BIG 1024. Proof. pose proof Vhi_big. pose proof Vhi_ge. pose proof Vhi_pos. lra. Qed.
Lemma CM_weak z Z e e' : CM z Z e -> e <= e' -> CM z Z e'. Proof. intros [F H] K. split; [exact F|lra]. Qed.
Lemma CM_comp z Z e : A (fst z) (fst Z) e -> A (snd z) (snd Z) e -> CM z Z (3 / 2 * e).
Proof. intros [F1 H1] [F2 H2]. split; [split; assumption|]. apply Cmod_comp; assumption. Qed.
Lemma CM_1 z Z e : CM z Z e -> A (fst z) (fst Z) e.
Proof. intros [[F _] H]. split; [exact F|]. eapply Rle_trans; [|exact H]. exact (Cmod_fst (Cminus (val z) Z)). Qed.
Lemma CM_2 z Z e : CM z Z e -> A (snd z) (snd Z) e.
Proof. intros [[_ F] H]. split; [exact F|]. eapply Rle_trans; [|exact H]. exact (Cmod_snd (Cminus (val z) Z)). Qed.
Lemma CM_self z : finc z -> CM z (val z) 0.
Proof. intros F. split; [exact F|]. replace (Cminus (val z) (val z)) with (RtoC 0) by ring. rewrite Cmod_0. lra. Qed.
Lemma CM_mod z Z e : CM z Z e -> Cmod (val z) <= Cmod Z + e.
Proof. intros [_ H]. replace (val z) with (Cplus Z (Cminus (val z) Z)) at 1 by ring. eapply Rle_trans; [apply Cmod_triangle|]. lra. Qed.
Lemma CM_move z Z Z' e d : CM z Z e -> Cmod (Cminus Z Z') <= d -> CM z Z' (e + d).
Proof. intros [F H] K. split; [exact F|]. replace (Cminus (val z) Z') with (Cplus (Cminus (val z) Z) (Cminus Z Z')) by ring. eapply Rle_trans; [apply Cmod_triangle|]. lra. Qed.
Lemma val_opp z : finc z -> finc (copp N z) /\ val (copp N z) = Copp (val z).
Proof.
  intros [F1 F2]. destruct (opp_r 53 1024 Hp53 He53 L _ F1) as [G1 E1]. destruct (opp_r 53 1024 Hp53 He53 L _ F2) as [G2 E2]. split; [split; assumption|].
  unfold val, copp. cbn [fst snd]. change (opp N) with (opp NN). rewrite E1, E2. reflexivity.
Qed.
Lemma CM_opp z Z e : CM z Z e -> CM (copp N z) (Copp Z) e.
Proof.
  intros [F H]. destruct (val_opp z F) as [G E]. split; [exact G|]. rewrite E. replace (Cminus (Copp (val z)) (Copp Z)) with (Copp (Cminus (val z) Z)) by ring. rewrite Cmod_opp. exact H.
Qed.
Lemma A_mulx (x y : fl) M : is_finite x = true -> is_finite y = true -> Rabs (B2R x * B2R y) <= M -> M <= 10 ^ 30 -> A (mul N x y) (B2R x * B2R y) (u * M + eta).
Proof.
  intros Fx Fy H HM. apply big_le in HM. destruct (mul_r 53 1024 Hp53 He53 ltac:(lia) ltac:(lia) ltac:(lia) L x y Fx Fy ltac:(lra)) as [P Q]. change (mul N x y) with (mul NN x y).
  split; [exact P|]. rewrite Q. pose proof (rnd_err 53 1024 Hp53 (B2R x * B2R y)) as R. eapply Rle_trans; [exact R|]. pose proof u_b. apply Rplus_le_compat; [apply Rmult_le_compat_l; [apply Rlt_le, u_b|exact H]|right; reflexivity].
Qed.
Lemma aadd f g a b e1 e2 M : A f a e1 -> A g b e2 -> Rabs (a + b) + e1 + e2 <= M -> M <= 10 ^ 30 -> A (add N f g) (a + b) (e1 + e2 + u * M + eta).
Proof. intros H1 H2 H3 H4. exact (A_add 53 1024 Hp53 He53 ltac:(lia) ltac:(lia) ltac:(lia) L f g a b e1 e2 M H1 H2 H3 (big_le M H4)). Qed.
Lemma asub f g a b e1 e2 M : A f a e1 -> A g b e2 -> Rabs (a - b) + e1 + e2 <= M -> M <= 10 ^ 30 -> A (sub N f g) (a - b) (e1 + e2 + u * M + eta).
Proof. intros H1 H2 H3 H4. exact (A_sub 53 1024 Hp53 He53 ltac:(lia) ltac:(lia) ltac:(lia) L f g a b e1 e2 M H1 H2 H3 (big_le M H4)). Qed.
(** two products and a sum, all of size at most M *)
Lemma aprod2 (x y s t : fl) M : is_finite x = true -> is_finite y = true -> is_finite s = true -> is_finite t = true -> Rabs (B2R x * B2R y) + Rabs (B2R s * B2R t) <= M -> M <= 10 ^ 29 ->
  A (add N (mul N x y) (mul N s t)) (B2R x * B2R y + B2R s * B2R t) (201 / 100 * (u * M) + 4 * eta) /\
  A (sub N (mul N x y) (mul N s t)) (B2R x * B2R y - B2R s * B2R t) (201 / 100 * (u * M) + 4 * eta).
Proof.
  intros Fx Fy Fs Ft H HM. set (p := B2R x * B2R y) in *. set (q := B2R s * B2R t) in *. pose proof (Rabs_pos p) as P0. pose proof (Rabs_pos q) as Q0. pose proof u_b as U. pose proof eta_1 as ET.
  pose proof (A_mulx x y (Rabs p) Fx Fy (Rle_refl _) ltac:(lra)) as A1. pose proof (A_mulx s t (Rabs q) Fs Ft (Rle_refl _) ltac:(lra)) as A2. fold p in A1. fold q in A2.
  assert (B : u * Rabs p + u * Rabs q <= u * M) by (rewrite <- Rmult_plus_distr_l; apply Rmult_le_compat_l; lra).
  assert (UM : 0 <= u * M <= M / 1000) by (split; [apply Rmult_le_pos; lra|]; unfold Rdiv; rewrite (Rmult_comm u); apply Rmult_le_compat_l; lra).
  assert (UE : 0 <= u * eta <= eta / 1000) by (split; [apply Rmult_le_pos; lra|]; unfold Rdiv; rewrite (Rmult_comm u); apply Rmult_le_compat_l; lra).
  assert (UUM : u * (u * M) <= (u * M) / 1000) by (unfold Rdiv; rewrite (Rmult_comm u); apply Rmult_le_compat_l; lra).
  set (M' := M + u * M + 2 * eta). assert (UM' : u * M' = u * M + u * (u * M) + 2 * (u * eta)) by (unfold M'; ring).
  split.
  - refine (A_weak _ _ _ _ _ _ (aadd _ _ _ _ _ _ M' A1 A2 _ _) _); [pose proof (Rabs_triang p q); unfold M'; lra|unfold M'; lra|rewrite UM'; lra].
  - refine (A_weak _ _ _ _ _ _ (asub _ _ _ _ _ _ M' A1 A2 _ _) _); [pose proof (Rabs_triang p (- q)) as T; rewrite Rabs_Ropp in T; unfold M', Rminus; lra|unfold M'; lra|rewrite UM'; lra].
Qed.
(** complex product *)
Lemma cmul_ok z w Z W e1 e2 X Y : CM z Z e1 -> CM w W e2 -> Cmod Z + e1 <= X -> Cmod W <= Y -> Cmod W + e2 <= Y -> X * Y <= 10 ^ 29 -> CM (cmul N z w) (Cmult Z W) (X * e2 + Y * e1 + 31 / 10 * (u * (X * Y)) + 6 * eta).
Proof.
  intros Hz Hw HX HY0 HY HM. pose proof (CM_mod _ _ _ Hz) as MZ. pose proof (CM_mod _ _ _ Hw) as MW. destruct Hz as [[F1 F2] Hz], Hw as [[G1 G2] Hw].
  pose proof (Cmod_ge_0 (val z)) as Z0. pose proof (Cmod_ge_0 (val w)) as W0. pose proof u_b as U. pose proof eta_1 as ET.
  assert (PM : Cmod (val z) * Cmod (val w) <= X * Y) by (apply Rmult_le_compat; lra).
  destruct (comp_prod (val z) (val w)) as [K1 K2]. cbn [val fst snd] in K1, K2. fold (val z) (val w) in K1, K2.
  assert (P1 := proj2 (aprod2 (fst z) (fst w) (snd z) (snd w) (X * Y) F1 G1 F2 G2 ltac:(lra) HM)).
  assert (P2 := proj1 (aprod2 (fst z) (snd w) (snd z) (fst w) (X * Y) F1 G2 F2 G1 ltac:(lra) HM)).
  assert (UX : 0 <= u * (X * Y)). { apply Rmult_le_pos; [lra|]. eapply Rle_trans; [|exact PM]. apply Rmult_le_pos; assumption. }
  assert (Q : CM (cmul N z w) (Cmult (val z) (val w)) (3 / 2 * (201 / 100 * (u * (X * Y)) + 4 * eta))).
  { apply CM_comp; unfold cmul, val, Cmult; cbn [fst snd]; [exact P1|]. replace (B2R (fst z) * B2R (snd w) + B2R (snd z) * B2R (fst w)) with (B2R (fst z) * B2R (snd w) + B2R (snd z) * B2R (fst w)) by ring. exact P2. }
  assert (D : Cmod (Cminus (Cmult (val z) (val w)) (Cmult Z W)) <= X * e2 + Y * e1).
  { replace (Cminus (Cmult (val z) (val w)) (Cmult Z W)) with (Cplus (Cmult (val z) (Cminus (val w) W)) (Cmult W (Cminus (val z) Z))) by ring. eapply Rle_trans; [apply Cmod_triangle|]. rewrite !Cmod_mult.
    apply Rplus_le_compat; apply Rmult_le_compat; try apply Cmod_ge_0; lra. }
  eapply CM_weak; [exact (CM_move _ _ _ _ _ Q D)|]. lra.
Qed.
Lemma cadd_ok z w Z W e1 e2 X : CM z Z e1 -> CM w W e2 -> Cmod (Cplus Z W) + e1 + e2 <= X -> X <= 10 ^ 29 -> CM (cadd N z w) (Cplus Z W) (e1 + e2 + 3 / 2 * (u * X) + 2 * eta).
Proof.
  intros [[F1 F2] Hz] [[G1 G2] Hw] HX HM. pose proof u_b as U. pose proof eta_1 as ET.
  assert (D : Cmod (Cminus (Cplus (val z) (val w)) (Cplus Z W)) <= e1 + e2). { replace (Cminus (Cplus (val z) (val w)) (Cplus Z W)) with (Cplus (Cminus (val z) Z) (Cminus (val w) W)) by ring. eapply Rle_trans; [apply Cmod_triangle|]. lra. }
  assert (B : Cmod (Cplus (val z) (val w)) <= X). { replace (Cplus (val z) (val w)) with (Cplus (Cplus Z W) (Cminus (Cplus (val z) (val w)) (Cplus Z W))) by ring. eapply Rle_trans; [apply Cmod_triangle|]. lra. }
  assert (Q : CM (cadd N z w) (Cplus (val z) (val w)) (3 / 2 * (u * X + eta))).
  { pose proof (Cmod_fst (Cplus (val z) (val w))) as C1. pose proof (Cmod_snd (Cplus (val z) (val w))) as C2. cbn [val Cplus fst snd] in C1, C2. fold (val z) (val w) in C1, C2.
    apply CM_comp; unfold cadd, val, Cplus; cbn [fst snd].
    - refine (A_weak _ _ _ _ _ _ (aadd _ _ _ _ 0 0 X (A_self _ _ _ F1) (A_self _ _ _ G1) _ _) _); [lra|lra|lra].
    - refine (A_weak _ _ _ _ _ _ (aadd _ _ _ _ 0 0 X (A_self _ _ _ F2) (A_self _ _ _ G2) _ _) _); [lra|lra|lra]. }
  eapply CM_weak; [exact (CM_move _ _ _ _ _ Q D)|]. lra.
Qed.
(** squared modulus *)
Lemma cnorm_ok z : finc z -> Cmod (val z) <= 10 ^ 14 -> A (cnorm N z) (Cmod (val z) * Cmod (val z)) (201 / 100 * (u * (Cmod (val z) * Cmod (val z))) + 4 * eta).
Proof.
  intros [F1 F2] H. pose proof (Cmod_ge_0 (val z)) as Z0. rewrite Cmod_sq at 1. cbn [val fst snd]. unfold cnorm.
  apply (aprod2 _ _ _ _ _ F1 F1 F2 F2); [rewrite !Rabs_pos_eq by nra; right; symmetry; apply (Cmod_sq (val z))|]. assert (Cmod (val z) * Cmod (val z) <= 10 ^ 14 * 10 ^ 14) by (apply Rmult_le_compat; lra). lra.
Qed.
(** complex logarithm *)
Lemma clog_ok z : finc z -> offneg (val z) -> bpow radix2 (-1000) <= Cmod (val z) <= 10 ^ 29 -> CM (clog N z) (Clog (val z)) (58 / 10 * u + 4 * u * Cmod (Clog (val z))).
Proof.
  intros [F1 F2] HO [H1 H2]. pose proof u_b as U. pose proof eta_1 as ET. pose proof eta_tiny as ET2. pose proof bm1000 as B0. set (Z := val z) in *. set (m := Cmod Z) in *.
  assert (MA : m = sqrt (B2R (fst z) * B2R (fst z) + B2R (snd z) * B2R (snd z))) by (unfold m; rewrite Cmod_alt; reflexivity).
  assert (MB : m <= BIG 1024) by (apply big_le; lra). unfold BIG in MB.
  pose proof (hypot_acc _ _ _ _ _ HL (fst z) (snd z) F1 F2 ltac:(rewrite <- MA; exact MB)) as CH. rewrite <- MA in CH. apply A_close in CH.
  change (m_hypot _ _ L (fst z) (snd z)) with (cabs N z) in CH. rewrite (Rabs_pos_eq m) in CH by lra.
  assert (um : 0 <= u * bpow radix2 (-1000) <= u * m) by (split; [apply Rmult_le_pos; lra|apply Rmult_le_compat_l; lra]).
  destruct CH as [FH DH]. destruct (ln_rel (B2R (cabs N z)) m (41 / 10 * u) ltac:(lra) ltac:(lra) ltac:(lra)) as [HP HD].
  pose proof (A_close _ _ _ _ (log_acc _ _ _ _ _ HL (cabs N z) FH HP)) as AL. change (m_log _ _ L (cabs N z)) with (nlog N (cabs N z)) in AL.
  assert (HX : B2R (fst z) <> 0 \/ B2R (snd z) <> 0) by (destruct HO as [K|K]; unfold Z, val in K; cbn [fst snd] in K; [left; lra|right; exact K]).
  assert (HY : B2R (snd z) <> 0 \/ 0 < B2R (fst z)) by (destruct HO as [K|K]; [right; exact K|left; exact K]).
  pose proof (A_close _ _ _ _ (atan2_acc _ _ _ _ _ HL (snd z) (fst z) F1 F2 HX HY)) as AA. change (m_atan2 _ _ L (snd z) (fst z)) with (carg N z) in AA. change (atan2R (B2R (snd z)) (B2R (fst z))) with (Carg Z) in AA.
  destruct AL as [FL DL], AA as [FA DA]. split; [split; assumption|].
  apply Rle_trans with (57 / 10 * u + 2 * eta + 4 * u * Cmod (Clog Z)); [|lra].
  apply Cmod_comb; try lra.
  - change (Rabs (B2R (nlog N (cabs N z)) - ln m) <= 57 / 10 * u + 4 * u * Rabs (ln m)). set (l := ln m) in *. set (lh := ln (B2R (cabs N z))) in *.
    assert (T1 : Rabs (B2R (nlog N (cabs N z)) - l) <= (4 * u * Rabs lh + 2 * eta) + 4 / 3 * (41 / 10 * u)) by (replace (B2R (nlog N (cabs N z)) - l) with ((B2R (nlog N (cabs N z)) - lh) + (lh - l)) by ring; eapply Rle_trans; [apply Rabs_triang|]; lra).
    assert (T2 : Rabs lh <= Rabs l + 4 / 3 * (41 / 10 * u)) by (replace lh with (l + (lh - l)) by ring; eapply Rle_trans; [apply Rabs_triang|]; lra).
    assert (T3 : 4 * u * Rabs lh <= 4 * u * (Rabs l + 4 / 3 * (41 / 10 * u))) by (apply Rmult_le_compat_l; lra).
    assert (UU : u * u <= u * / 10 ^ 15) by (apply Rmult_le_compat_l; lra). replace (4 * u * (Rabs l + 4 / 3 * (41 / 10 * u))) with (4 * u * Rabs l + 656 / 30 * (u * u)) in T3 by field. lra.
  - change (Rabs (B2R (carg N z) - Carg Z) <= 2 * eta + 4 * u * Rabs (Carg Z)). lra.
Qed.
(** complex quotient of two numbers of nearly equal modulus *)
Lemma cdiv_ok w d : finc w -> finc d -> / 10 ^ 20 <= Cmod (val d) <= 10 -> Cmod (val w) <= 101 / 100 * Cmod (val d) -> CM (cdiv N w d) (Cdiv (val w) (val d)) (8 * u).
Proof.
  intros [F1 F2] [G1 G2] [H1 H2] HW. pose proof u_b as U. pose proof eta_1 as ET. set (m := Cmod (val d)) in *. assert (I20 : 0 < / 10 ^ 20) by (apply Rinv_0_lt_compat, pow_lt; lra). assert (m0 : 0 < m) by lra.
  pose proof (Cmod_ge_0 (val w)) as W0. set (q := m * m) in *. assert (q0 : / 10 ^ 40 <= q) by (unfold q; replace (/ 10 ^ 40) with (/ 10 ^ 20 * / 10 ^ 20) by lra; apply Rmult_le_compat; lra).
  assert (q1 : q <= 100) by (unfold q; replace 100 with (10 * 10) by ring; apply Rmult_le_compat; lra). assert (I40 : 0 < / 10 ^ 40) by (apply Rinv_0_lt_compat, pow_lt; lra).
  assert (uq : 0 <= u * / 10 ^ 40 <= u * q) by (split; [apply Rmult_le_pos; lra|apply Rmult_le_compat_l; lra]). assert (ETq : eta <= u * q / 1000) by lra. assert (uq1 : u * q <= q / 1000000) by (unfold Rdiv; rewrite (Rmult_comm u); apply Rmult_le_compat_l; lra).
  pose proof (cnorm_ok d (conj G1 G2) ltac:(fold m; lra)) as AN. fold m in AN. fold q in AN.
  assert (PM : Cmod (val w) * m <= 101 / 100 * q) by (unfold q; rewrite <- Rmult_assoc; apply Rmult_le_compat_r; lra).
  destruct (comp_prod (val w) (val d)) as [K1 K2]. fold m in K1, K2. cbn [val fst snd] in K1, K2.
  assert (P1 := proj1 (aprod2 (fst w) (fst d) (snd w) (snd d) (101 / 100 * q) F1 G1 F2 G2 ltac:(lra) ltac:(lra))).
  assert (P2 := proj2 (aprod2 (snd w) (fst d) (fst w) (snd d) (101 / 100 * q) F2 G1 F1 G2 ltac:(lra) ltac:(lra))).
  assert (qp : 0 <= q) by lra.
  assert (G : forall f a, A f a (201 / 100 * (u * (101 / 100 * q)) + 4 * eta) -> Rabs a <= 101 / 100 * q -> A (div N f (cnorm N d)) (a / q) (26 / 5 * u)).
  { intros f a Af Ha.
    assert (E1 : (201 / 100 * (u * (101 / 100 * q)) + 4 * eta) / (999 / 1000 * q) + (101 / 100 * q) * (201 / 100 * (u * q) + 4 * eta) / ((999 / 1000 * q) * (999 / 1000 * q)) <= 413 / 100 * u).
    { apply Rle_trans with (2035 / 1000 * (u * q) / (999 / 1000 * q) + (101 / 100 * q) * (2015 / 1000 * (u * q)) / ((999 / 1000 * q) * (999 / 1000 * q))).
      - apply Rplus_le_compat; (apply Rmult_le_compat_r; [left; apply Rinv_0_lt_compat; nra|]); [lra|apply Rmult_le_compat_l; lra].
      - replace (2035 / 1000 * (u * q) / (999 / 1000 * q) + 101 / 100 * q * (2015 / 1000 * (u * q)) / (999 / 1000 * q * (999 / 1000 * q))) with ((2035 / 999 + 101 / 100 * (2015 / 1000) * (1000 / 999) * (1000 / 999)) * u) by (field; lra). apply Rmult_le_compat_r; lra. }
    refine (A_weak _ _ _ _ _ _ (A_div 53 1024 Hp53 He53 ltac:(lia) ltac:(lia) ltac:(lia) L f (cnorm N d) a q _ _ (101 / 100 * q) (999 / 1000 * q) (413 / 100 * u) (102 / 100) Af AN Ha ltac:(lra) _ E1 _ _) _).
    - clear E1. rewrite (Rabs_pos_eq q qp). lra.
    - clear E1. replace (101 / 100 * q / (999 / 1000 * q)) with (1010 / 999) by (field; lra). lra.
    - clear E1. apply big_le. lra.
    - clear E1. lra. }
  assert (DN : val d <> RtoC 0) by (intros E; unfold m in m0; rewrite E, Cmod_0 in m0; lra).
  assert (EQ : Cdiv (val w) (val d) = ((B2R (fst w) * B2R (fst d) + B2R (snd w) * B2R (snd d)) / q, (B2R (snd w) * B2R (fst d) - B2R (fst w) * B2R (snd d)) / q)).
  { assert (Q : q = B2R (fst d) * B2R (fst d) + B2R (snd d) * B2R (snd d)) by (unfold q, m; apply (Cmod_sq (val d))). assert (Qn : q <> 0) by lra. rewrite Q in *. unfold Cdiv, Cinv, Cmult, val. cbn [fst snd]. f_equal; field; intros E; apply Qn; rewrite <- E; ring. }
  eapply CM_weak; [apply (CM_comp _ _ (26 / 5 * u))|lra]; rewrite EQ; unfold cdiv; cbn [fst snd]; apply G; try assumption.
  - eapply Rle_trans; [apply Rabs_triang|]. lra.
  - unfold Rminus. eapply Rle_trans; [apply Rabs_triang|]. rewrite Rabs_Ropp. lra.
Qed.
(** -1/z *)
Lemma cdiv_m1_ok z : finc z -> 99 / 100 <= Cmod (val z) <= 10 ^ 13 -> CM (cdiv_rc N (lit N (-1) 0) z) (Copp (Cinv (val z))) (8 * u).
Proof.
  intros [F1 F2] [H1 H2]. pose proof u_b as U. pose proof eta_1 as ET. set (m := Cmod (val z)) in *. destruct (int_v L (-1) ltac:(lia)) as [Fm Vm].
  set (q := m * m) in *. assert (q0 : 98 / 100 <= q) by (unfold q; nra). assert (q1 : q <= 10 ^ 26) by (unfold q; replace (10 ^ 26) with (10 ^ 13 * 10 ^ 13) by lra; apply Rmult_le_compat; lra).
  assert (mq : m <= 102 / 100 * q) by (unfold q; nra).
  assert (uq : u * (98 / 100) <= u * q) by (apply Rmult_le_compat_l; lra). assert (uq1 : u * q <= q / 1000000) by (unfold Rdiv; rewrite (Rmult_comm u); apply Rmult_le_compat_l; lra).
  assert (um : 0 <= u * m <= u * (102 / 100 * q)) by (split; [apply Rmult_le_pos; lra|apply Rmult_le_compat_l; lra]).
  pose proof (cnorm_ok z (conj F1 F2) ltac:(fold m; lra)) as AN. fold m in AN. fold q in AN.
  pose proof (Cmod_fst (val z)) as K1. pose proof (Cmod_snd (val z)) as K2. fold m in K1, K2. cbn [val fst snd] in K1, K2.
  assert (qp : 0 <= q) by lra.
  assert (G : forall x : fl, is_finite x = true -> Rabs (B2R x) <= m -> A (div N (mul N (lit N (-1) 0) x) (cnorm N z)) (- B2R x / q) (5 * u)).
  { intros x Fx Hx. pose proof (A_mulx (lit N (-1) 0) x m Fm Fx ltac:(rewrite Vm, Rabs_mult, Rabs_left by lra; lra) ltac:(lra)) as A1. rewrite Vm in A1. replace (-1 * B2R x) with (- B2R x) in A1 by ring.
    assert (E1 : (u * m + eta) / (999 / 1000 * q) + m * (201 / 100 * (u * q) + 4 * eta) / ((999 / 1000 * q) * (999 / 1000 * q)) <= 33 / 10 * u).
    { apply Rle_trans with (103 / 100 * (u * q) / (999 / 1000 * q) + (102 / 100 * q) * (2015 / 1000 * (u * q)) / ((999 / 1000 * q) * (999 / 1000 * q))).
      - apply Rplus_le_compat; (apply Rmult_le_compat_r; [left; apply Rinv_0_lt_compat; nra|]); [lra|apply Rmult_le_compat; lra].
      - replace (103 / 100 * (u * q) / (999 / 1000 * q) + 102 / 100 * q * (2015 / 1000 * (u * q)) / (999 / 1000 * q * (999 / 1000 * q))) with ((1030 / 999 + 102 / 100 * (2015 / 1000) * (1000 / 999) * (1000 / 999)) * u) by (field; lra). apply Rmult_le_compat_r; lra. }
    refine (A_weak _ _ _ _ _ _ (A_div 53 1024 Hp53 He53 ltac:(lia) ltac:(lia) ltac:(lia) L _ (cnorm N z) _ q _ _ m (999 / 1000 * q) (33 / 10 * u) (105 / 100) A1 AN ltac:(rewrite Rabs_Ropp; exact Hx) ltac:(lra) _ E1 _ _) _).
    - clear E1. rewrite (Rabs_pos_eq q qp). lra.
    - clear E1. assert (m / (999 / 1000 * q) <= 1021 / 999); [|lra]. apply Rmult_le_reg_r with (999 / 1000 * q); [lra|]. unfold Rdiv at 1. rewrite Rmult_assoc, Rinv_l by lra. lra.
    - clear E1. apply big_le. lra.
    - clear E1. lra. }
  assert (DN : val z <> RtoC 0) by (intros E; assert (m = 0) by (unfold m; rewrite E; apply Cmod_0); lra).
  assert (EQ : Copp (Cinv (val z)) = (- B2R (fst z) / q, - (- B2R (snd z) / q))).
  { assert (Q : q = B2R (fst z) * B2R (fst z) + B2R (snd z) * B2R (snd z)) by (unfold q, m; apply (Cmod_sq (val z))). assert (Qn : q <> 0) by lra. rewrite Q in *. unfold Copp, Cinv, val. cbn [fst snd]. f_equal; field; intros E; apply Qn; rewrite <- E; ring. }
  eapply CM_weak; [apply (CM_comp _ _ (5 * u))|lra]; rewrite EQ; unfold cdiv_rc; cbn [fst snd]; [apply G; assumption|].
  exact (A_opp 53 1024 Hp53 He53 L _ _ _ (G _ F2 K2)).
Qed.
End C.
