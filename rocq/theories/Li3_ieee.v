(** * Real Li3 in IEEE double: all finite arguments *)
From Coq Require Import ZArith Reals Bool Lia Lra Psatz List.
From Coquelicot Require Import Coquelicot.
From Interval Require Import Tactic.
From Flocq Require Import Core Relative Sterbenz Mult_error IEEE754.BinarySingleNaN.
From Verif Require Import Num NumR Eval_R NumB NumB_facts Proof_Float Libm Ferr FerrB Fcalc Polylog Polylog_eqs Fourier Consts Model_LiR Proof_Li2 Proof_Li3 Proof_Li4 Ieee Li2_ieee Li34_ieee Li34_core.
Import ListNotations.
Local Open Scope R_scope.

(** the size of Li_n: |x| near 0, log^n |x| far out *)
Definition sizen (n : nat) (x : R) : R := Rmin 1 (Rabs x) + ln (1 + Rabs x) ^ n.
Lemma sizen_min n x : Rmin 1 (Rabs x) <= sizen n x.
Proof. unfold sizen. assert (0 <= ln (1 + Rabs x) ^ n); [|lra]. apply pow_le. rewrite <- ln_1. apply ln_le; [lra|pose proof (Rabs_pos x); lra]. Qed.
Lemma sizen_big n x : 1 <= Rabs x -> 1 + ln (Rabs x) ^ n <= sizen n x.
Proof.
  intros H. unfold sizen. rewrite Rmin_left by exact H. assert (ln (Rabs x) ^ n <= ln (1 + Rabs x) ^ n); [|lra]. apply pow_incr. split; [rewrite <- ln_1; apply ln_le; lra|apply ln_le; lra].
Qed.

Section C.
Variable L : libm 53 1024.
Hypothesis HL : libm_ok (Hp := Hp53) (He := He53) L.
Notation N := (B64 L).
Local Notation NN := (NumB 53 1024 Hp53 He53 L).

Lemma lip_A n (f : fl) y t k e : (2 <= n)%nat -> A f (ReLi n y) k -> -1 <= y <= / 2 -> -1 <= t <= / 2 -> Rabs (y - t) <= e -> A f (ReLi n t) (k + 3 / 2 * e).
Proof.
  intros Hn [F D] Hy Ht He. split; [exact F|]. pose proof (li_lip n y t Hn Hy Ht) as Q. replace (B2R f - ReLi n t) with ((B2R f - ReLi n y) + (ReLi n y - ReLi n t)) by ring. eapply Rle_trans; [apply Rabs_triang|]. lra.
Qed.
Definition bound3 (x : R) : R := 300 * u * sizen 3 x + 100 * eta.
Lemma bound3_of x e T : 0 <= T <= sizen 3 x -> e <= 300 * u * T + 100 * eta -> e <= bound3 x.
Proof. intros H G. unfold bound3. pose proof u_b. assert (300 * u * T <= 300 * u * sizen 3 x) by (apply Rmult_le_compat_l; lra). lra. Qed.

Lemma E_z2 : E (lit N 16449340668482264 (-16)) (ReLi 2 1) (33 / 20) 1.6.
Proof. pose proof zeta2_lit as Z. apply E_lit; [rewrite (litR10 _ 16 16) by reflexivity; lra| |lra]. apply Rabs_le_between in Z. apply Rabs_le. lra. Qed.
Lemma E_z3 : E (lit N 12020569031595943 (-16)) (ReLi 3 1) (61 / 50) 1.6.
Proof. pose proof zeta3_lit as Z. apply E_lit; [rewrite (litR10 _ 16 16) by reflexivity; lra| |lra]. apply Rabs_le_between in Z. apply Rabs_le. lra. Qed.
Lemma E_z4 : E (lit N 10823232337111382 (-16)) (ReLi 4 1) (109 / 100) 1.6.
Proof. pose proof zeta4_lit as Z. apply E_lit; [rewrite (litR10 _ 16 16) by reflexivity; lra| |lra]. apply Rabs_le_between in Z. apply Rabs_le. lra. Qed.
Lemma E_q p q : (1 <= p <= 10 ^ 9)%Z -> (1 <= q <= 10 ^ 9)%Z -> E (div N (lit N p 0) (lit N q 0)) (IZR p / IZR q) (IZR p / IZR q) 1.1.
Proof. intros H1 H2. pose proof (E_quot L p q ltac:(lia) H2) as Q. rewrite (Rabs_pos_eq (IZR p)) in Q by (apply IZR_le; lia). exact Q. Qed.

(** facts shared by all branches *)
Lemma ctx : 0 < u <= / 10 ^ 15 /\ 0 < eta <= u / 10 ^ 60 /\ 0 < Vlo <= / 10 ^ 60 /\ Vlo <= u * u * u * u / 10 ^ 9 /\ 10 ^ 30 <= Vhi /\ 10 ^ 30 <= BIG 1024.
Proof.
  pose proof u_b as U. pose proof eta_lo as T. pose proof Vlo_le. pose proof Vlo_pos. pose proof Vhi_ge. pose proof Vhi_big. pose proof Vlo_u4.
  assert (u * Vlo <= u * / 10 ^ 60) by (apply Rmult_le_compat_l; lra). repeat split; try lra.
Qed.

(** x < -1 *)
Lemma br3A (x : fl) : is_finite x = true -> B2R x < -1 ->
  A (sub N (li3_neg N (div N (lit N 1 0) x)) (mul N (nlog N (opp N x)) (add N (lit N 16449340668482264 (-16)) (mul N (mul N (div N (lit N 1 0) (lit N 6 0)) (nlog N (opp N x))) (nlog N (opp N x)))))) (ReLi 3 (B2R x)) (bound3 (B2R x)).
Proof.
  intros Fx Hx. destruct ctx as (U & T & V0 & V4 & VH & BG). destruct (opp_r 53 1024 Hp53 He53 L x Fx) as [Fo Vo]. change (opp NN x) with (opp N x) in Fo, Vo.
  destruct (inv_f L x Fx ltac:(rewrite Rabs_left by lra; lra)) as (Fi & Vi & Di & Bi). set (X := B2R x) in *.
  assert (I0 : -1 < / X < 0) by (split; [apply Rabs_def2 in Bi; lra|apply Rinv_lt_0_compat; lra]). rewrite (Rabs_left (/ X)) in Di by lra.
  assert (RI : -1 <= rnd (/ X) <= 0) by (split; [rewrite <- (rint L (-1) ltac:(lia)); apply rmono; lra|rewrite <- (rint L 0 ltac:(lia)); apply rmono; lra]).
  pose proof (neg3_A L _ Fi ltac:(rewrite Vi; exact RI)) as C. rewrite Vi in C.
  assert (E0 : u * - / X <= u * 1) by (apply Rmult_le_compat_l; lra).
  pose proof (lip_A 3 _ _ (/ X) _ (u + eta) ltac:(lia) C ltac:(lra) ltac:(lra) ltac:(lra)) as C2.
  assert (R1 : 24 * u * Rabs (rnd (/ X)) <= 24 * u * 1) by (apply Rmult_le_compat_l; [lra|apply Rabs_le; lra]).
  pose proof (E_logL L HL (opp N x) Fo ltac:(rewrite Vo; fold X; lra)) as El. rewrite Vo in El. fold X in El.
  assert (l0 : 0 <= ln (- X)) by (rewrite <- ln_1; apply ln_le; lra). assert (l1 : ln (- X) <= 1000) by (pose proof (ln_le_1024 (opp N x) Fo) as Q; rewrite Vo in Q; apply Q; fold X; lra).
  pose proof (sizen_big 3 X ltac:(rewrite Rabs_left by lra; lra)) as SZ. rewrite (Rabs_left X) in SZ by lra. 
  pose proof (Li3_inversion (-1) X (or_intror eq_refl) ltac:(lra)) as IV. rewrite (Rabs_left X), Li2_m1 in IV by lra.
  set (l := ln (- X)) in *. rewrite (Rabs_pos_eq l) in El by lra. specialize (El ltac:(lra)). set (M := 1 + l) in *. assert (M1 : 1 <= M <= 1001) by (unfold M; lra). assert (MM : 1 <= M * M <= 1001 * 1001) by (split; [replace 1 with (1 * 1) by ring|]; apply Rmult_le_compat; lra).
  pose proof (E_q 1 6 ltac:(lia) ltac:(lia)) as E6.
  pose proof (E_mul L _ _ _ _ _ _ _ _ E6 El ltac:(lra) ltac:(lra)) as E1.
  pose proof (E_mul L _ _ _ _ _ _ _ _ E1 El ltac:(lra) ltac:(lra)) as E2.
  pose proof (E_add L _ _ _ _ _ _ _ _ 13.3 E_z2 E2 ltac:(lra) ltac:(lra) ltac:(lra) ltac:(lra)) as E3.
  assert (MMM : 1 <= M * (M * M) <= 1001 * (1001 * 1001)) by (split; [replace 1 with (1 * 1) by ring|]; apply Rmult_le_compat; lra).
  pose proof (E_mul L _ _ _ _ _ _ _ _ El E3 ltac:(lra) ltac:(lra)) as E4.
  assert (En : E (li3_neg N (div N (lit N 1 0) x)) (ReLi 3 (/ X)) (3 / 2) 18).
  { apply (E_A _ _ _ _ _ C2); [|lra|lra|lra]. eapply Rle_trans; [apply li_up; [lia|lra]|]. assert (Rabs (/ X) <= 1) by lra. lra. }
  pose proof (E_sub L _ _ _ _ _ _ _ _ 20.5 En E4 ltac:(lra) ltac:(lra) ltac:(lra) ltac:(lra)) as E5.
  apply A_E in E5. replace (ReLi 3 X) with (ReLi 3 (/ X) - l * (ReLi 2 1 + 1 / 6 * l * l)) by (cbn [pow] in IV; lra).
  eapply A_weak; [exact E5|]. apply (bound3_of X _ (1 + l ^ 3)); [split; [assert (0 <= l ^ 3) by (apply pow_le; lra); lra|exact SZ]|].
  assert (G : 3 / 2 + M * (33 / 20 + 1 / 6 * M * M) <= 6 * (1 + l ^ 3)). { unfold M. cbn [pow]. assert (0 <= l * ((l - 1) * (l - 1))) by (apply Rmult_le_pos; [lra|apply Rle_0_sqr]). assert (0 <= (l - 1) * (l - 1)) by apply Rle_0_sqr. assert (0 <= (l - 1 / 2) * (l - 1 / 2)) by apply Rle_0_sqr. assert (0 <= l * ((l - 1 / 2) * (l - 1 / 2))) by (apply Rmult_le_pos; [lra|apply Rle_0_sqr]). lra. }
  apply (Rmult_le_compat_l u) in G; [|lra]. assert (0 <= u * (1 + l ^ 3)) by (apply Rmult_le_pos; [lra|assert (0 <= l ^ 3) by (apply pow_le; lra); lra]). lra.
Qed.
(** x >= 2 *)
Lemma br3E (x : fl) : is_finite x = true -> 2 <= B2R x ->
  A (add N (li3_pos N (div N (lit N 1 0) x)) (mul N (nlog N x) (sub N (mul N (lit N 2 0) (lit N 16449340668482264 (-16))) (mul N (mul N (div N (lit N 1 0) (lit N 6 0)) (nlog N x)) (nlog N x))))) (ReLi 3 (B2R x)) (bound3 (B2R x)).
Proof.
  intros Fx Hx. destruct ctx as (U & T & V0 & V4 & VH & BG).
  destruct (inv_f L x Fx ltac:(rewrite Rabs_pos_eq by lra; lra)) as (Fi & Vi & Di & Bi). pose proof (E_logL L HL x Fx ltac:(lra)) as El. pose proof (ln_le_1024 x Fx ltac:(lra)) as l1. set (X := B2R x) in *.
  assert (I0 : 0 < / X <= / 2) by (split; [apply Rinv_0_lt_compat; lra|apply Rinv_le_contravar; lra]). rewrite (Rabs_pos_eq (/ X)) in Di by lra.
  assert (RI : 0 <= rnd (/ X) <= / 2) by (split; [rewrite <- (rint L 0 ltac:(lia)); apply rmono; lra|rewrite <- (rhalf L); apply rmono; lra]).
  pose proof (pos3_A L _ Fi ltac:(rewrite Vi; exact RI)) as C. rewrite Vi in C.
  assert (E0 : u * / X <= u * / 2) by (apply Rmult_le_compat_l; lra).
  pose proof (lip_A 3 _ _ (/ X) _ (u * / 2 + eta) ltac:(lia) C ltac:(lra) ltac:(lra) ltac:(lra)) as C2.
  assert (R1 : 137 * u * Rabs (rnd (/ X)) <= 137 * u * / 2) by (apply Rmult_le_compat_l; [lra|apply Rabs_le; lra]).
  apply (A_weak _ _ _ _ _ (70 * u)) in C2; [|lra].
  assert (l0 : 0 <= ln X) by (rewrite <- ln_1; apply ln_le; lra).
  pose proof (sizen_big 3 X ltac:(rewrite Rabs_pos_eq by lra; lra)) as SZ. rewrite (Rabs_pos_eq X) in SZ by lra. 
  pose proof (Li3_inversion 1 X (or_introl eq_refl) ltac:(lra)) as IV. rewrite (Rabs_pos_eq X) in IV by lra.
  set (l := ln X) in *. rewrite (Rabs_pos_eq l) in El by lra. specialize (El ltac:(lra)). set (M := 1 + l) in *. assert (M1 : 1 <= M <= 1001) by (unfold M; lra). assert (MM : 1 <= M * M <= 1001 * 1001) by (split; [replace 1 with (1 * 1) by ring|]; apply Rmult_le_compat; lra).
  pose proof (E_q 1 6 ltac:(lia) ltac:(lia)) as E6. pose proof (E_int L 2 ltac:(lia)) as Ei. rewrite (Rabs_pos_eq 2) in Ei by lra.
  pose proof (E_mul L _ _ _ _ _ _ _ _ Ei E_z2 ltac:(lra) ltac:(lra)) as Ez.
  pose proof (E_mul L _ _ _ _ _ _ _ _ E6 El ltac:(lra) ltac:(lra)) as E1.
  pose proof (E_mul L _ _ _ _ _ _ _ _ E1 El ltac:(lra) ltac:(lra)) as E2.
  pose proof (E_sub L _ _ _ _ _ _ _ _ 13.3 Ez E2 ltac:(lra) ltac:(lra) ltac:(lra) ltac:(lra)) as E3.
  assert (MMM : 1 <= M * (M * M) <= 1001 * (1001 * 1001)) by (split; [replace 1 with (1 * 1) by ring|]; apply Rmult_le_compat; lra).
  pose proof (E_mul L _ _ _ _ _ _ _ _ El E3 ltac:(lra) ltac:(lra)) as E4.
  assert (B4 : Rabs (l * (2 * ReLi 2 1 - 1 / 6 * l * l)) <= M * (2 * (33 / 20) + 1 / 6 * M * M)) by exact (proj1 (proj2 (proj2 E4))).
  apply A_E in E4. set (W := M * (2 * (33 / 20) + 1 / 6 * M * M)) in *.
  assert (W1 : 1 <= W) by (unfold W; lra). assert (W2 : W <= 10 ^ 10) by (unfold W; lra). assert (uW : 0 <= u * W <= / 10 ^ 15 * W) by (split; [apply Rmult_le_pos; lra|apply Rmult_le_compat_r; lra]).
  assert (B1 : Rabs (ReLi 3 (/ X)) <= 3 / 4). { eapply Rle_trans; [apply li_up; [lia|lra]|]. rewrite Rabs_pos_eq by lra. lra. }
  pose proof (Rabs_triang (ReLi 3 (/ X)) (l * (2 * ReLi 2 1 - 1 / 6 * l * l))) as TR.
  pose proof (A_add 53 1024 Hp53 He53 ltac:(lia) ltac:(lia) ltac:(lia) L _ _ _ _ _ _ (1 + 11 / 10 * W) C2 E4 ltac:(lra) ltac:(lra)) as E5.
  replace (ReLi 3 X) with (ReLi 3 (/ X) + l * (2 * ReLi 2 1 - 1 / 6 * l * l)) by (cbn [pow] in IV; lra).
  eapply A_weak; [exact E5|]. apply (bound3_of X _ (1 + l ^ 3)); [split; [assert (0 <= l ^ 3) by (apply pow_le; lra); lra|exact SZ]|].
  assert (G : 72 + 22 * W <= 300 * (1 + l ^ 3)). { unfold W, M. cbn [pow]. assert (0 <= l * ((l - 1) * (l - 1))) by (apply Rmult_le_pos; [lra|apply Rle_0_sqr]). assert (0 <= (l - 1) * (l - 1)) by apply Rle_0_sqr. assert (0 <= (l - 1 / 2) * (l - 1 / 2)) by apply Rle_0_sqr. assert (0 <= l * ((l - 1 / 2) * (l - 1 / 2))) by (apply Rmult_le_pos; [lra|apply Rle_0_sqr]). lra. }
  apply (Rmult_le_compat_l u) in G; [|lra]. lra.
Qed.
(** the part of the remainder with the logarithms, shared by the two branches around 1 *)
Lemma vu2 : Vlo <= u * u / 10 ^ 9 /\ Vlo <= u / 10 ^ 9.
Proof.
  destruct ctx as (U & T & V0 & V4 & VH & BG). assert (u * u <= u * 1) by (apply Rmult_le_compat_l; lra). assert (0 <= u * u) by (apply Rmult_le_pos; lra). assert ((u * u) * (u * u) <= (u * u) * 1) by (apply Rmult_le_compat_l; lra). split; lra.
Qed.
Lemma rest_E (lf gf : fl) l g : E lf l (Rabs l) 5 -> E gf g (Rabs g) 5 -> u / 2 <= Rabs l <= 7 / 10 -> u / 2 <= Rabs g <= 10 ^ 4 -> Rabs l * Rabs g <= 1 ->
  A (mul N lf (add N (lit N 16449340668482264 (-16)) (mul N lf (add N (mul N (lit N (-5) (-1)) gf) (mul N (div N (lit N 1 0) (lit N 6 0)) lf))))) (l * (ReLi 2 1 + l * (- / 2 * g + 1 / 6 * l))) (35 * u) /\
  Rabs (l * (ReLi 2 1 + l * (- / 2 * g + 1 / 6 * l))) <= 162 / 100.
Proof.
  intros El Eg Hl Hg Hlg. destruct ctx as (U & T & V0 & V4 & VH & BG). destruct vu2 as [vu vu1]. set (a := Rabs l) in *. set (b := Rabs g) in *.
  assert (aa : u * u / 4 <= a * a <= 49 / 100). { split; [replace (u * u / 4) with ((u / 2) * (u / 2)) by field|replace (49 / 100) with ((7 / 10) * (7 / 10)) by field]; apply Rmult_le_compat; lra. }
  assert (ab0 : 0 <= a * b) by (apply Rmult_le_pos; lra). assert (u2 : 0 <= u * u) by (apply Rmult_le_pos; lra).
  pose proof (E_q 1 6 ltac:(lia) ltac:(lia)) as E6.
  pose proof (E_mul L _ _ _ _ _ _ _ _ (E_mhalf L) Eg ltac:(lra) ltac:(lra)) as Eg2.
  pose proof (E_mul L _ _ _ _ _ _ _ _ E6 El ltac:(lra) ltac:(lra)) as E1.
  pose proof (E_add L _ _ _ _ _ _ _ _ 7.2 Eg2 E1 ltac:(lra) ltac:(lra) ltac:(lra) ltac:(lra)) as E2.
  assert (w : u * u / 24 <= a * (/ 2 * b + 1 / 6 * a) <= 582 / 1000) by lra.
  pose proof (E_mul L _ _ _ _ _ _ _ _ El E2 ltac:(lra) ltac:(lra)) as E3.
  pose proof (E_add L _ _ _ _ _ _ _ _ 14.4 E_z2 E3 ltac:(lra) ltac:(lra) ltac:(lra) ltac:(lra)) as E4.
  set (W := 33 / 20 + a * (/ 2 * b + 1 / 6 * a)) in *. assert (W1 : 33 / 20 <= W <= 2232 / 1000) by (unfold W; lra).
  assert (aW : u / 2 * (33 / 20) <= a * W <= 7 / 10 * (2232 / 1000)) by (split; apply Rmult_le_compat; lra).
  pose proof (E_mul L _ _ _ _ _ _ _ _ El E4 ltac:(lra) ltac:(lra)) as E5. split.
  - apply A_E in E5. eapply A_weak; [exact E5|]. assert (u * (a * W) <= u * (7 / 10 * (2232 / 1000))) by (apply Rmult_le_compat_l; lra). lra.
  - destruct E5 as (_ & _ & Q & _). lra.
Qed.
(** the final sum of those two branches *)
Lemma sum_A (nf pf rf : fl) n0 p0 r0 : A nf n0 (28 * u) -> A pf p0 (71 * u) -> A rf r0 (35 * u) -> Rabs n0 <= 3 / 2 -> Rabs p0 <= 3 / 4 -> Rabs r0 <= 162 / 100 ->
  A (add N (add N (sub N (opp N nf) pf) (lit N 12020569031595943 (-16))) rf) (- n0 - p0 + ReLi 3 1 + r0) (148 * u).
Proof.
  intros An Ap Ar Bn Bp Br. destruct ctx as (U & T & V0 & V4 & VH & BG). pose proof (A_E _ _ _ _ E_z3) as Az. assert (Bz : Rabs (ReLi 3 1) <= 61 / 50) by exact (proj1 (proj2 (proj2 E_z3))).
  apply (A_opp 53 1024 Hp53 He53 L) in An. rewrite <- Rabs_Ropp in Bn. set (m0 := - n0) in *.
  pose proof (Rabs_triang m0 (- p0)) as T1. rewrite (Rabs_Ropp p0) in T1. change (m0 + - p0) with (m0 - p0) in T1.
  pose proof (A_sub 53 1024 Hp53 He53 ltac:(lia) ltac:(lia) ltac:(lia) L _ _ _ _ _ _ (23 / 10) An Ap ltac:(lra) ltac:(lra)) as A1.
  pose proof (Rabs_triang (m0 - p0) (ReLi 3 1)) as T2.
  pose proof (A_add 53 1024 Hp53 He53 ltac:(lia) ltac:(lia) ltac:(lia) L _ _ _ _ _ _ (36 / 10) A1 Az ltac:(lra) ltac:(lra)) as A2.
  pose proof (Rabs_triang (m0 - p0 + ReLi 3 1) r0) as T3.
  pose proof (A_add 53 1024 Hp53 He53 ltac:(lia) ltac:(lia) ltac:(lia) L _ _ _ _ _ _ (53 / 10) A2 Ar ltac:(lra) ltac:(lra)) as A3.
  eapply A_weak; [exact A3|]. lra.
Qed.
(** 1/2 < x < 1 *)
Lemma br3C (x : fl) : is_finite x = true -> / 2 < B2R x < 1 ->
  A (add N (add N (sub N (opp N (li3_neg N (sub N (lit N 1 0) (div N (lit N 1 0) x)))) (li3_pos N (sub N (lit N 1 0) x))) (lit N 12020569031595943 (-16)))
      (mul N (nlog N x) (add N (lit N 16449340668482264 (-16)) (mul N (nlog N x) (add N (mul N (lit N (-5) (-1)) (nlog1p N (opp N x))) (mul N (div N (lit N 1 0) (lit N 6 0)) (nlog N x))))))) (ReLi 3 (B2R x)) (bound3 (B2R x)).
Proof.
  intros Fx Hx. destruct ctx as (U & T & V0 & V4 & VH & BG). destruct (int_v L 1 ltac:(lia)) as [F1 V1]. destruct (opp_r 53 1024 Hp53 He53 L x Fx) as [Fo Vo]. change (opp NN x) with (opp N x) in Fo, Vo. pose proof (below_1 L x ltac:(lra)) as BX.
  destruct (div_r 53 1024 Hp53 He53 ltac:(lia) ltac:(lia) ltac:(lia) L (lit N 1 0) x F1 ltac:(lra)) as [Fi Vi].
  { rewrite V1. unfold Rdiv. rewrite Rmult_1_l, Rabs_inv, Rabs_pos_eq by lra. assert (/ B2R x <= / / 2) by (apply Rinv_le_contravar; lra). lra. }
  change (div NN (lit N 1 0) x) with (div N (lit N 1 0) x) in Fi, Vi. rewrite V1 in Vi. unfold Rdiv in Vi. rewrite Rmult_1_l in Vi.
  destruct (sub_sterb L (lit N 1 0) x F1 Fx ltac:(rewrite V1; lra) ltac:(rewrite V1; rewrite Rabs_pos_eq; lra)) as [Fs Vs]. rewrite V1 in Vs.
  pose proof (E_log L HL x Fx ltac:(lra)) as El. pose proof (E_log1p L HL (opp N x) Fo ltac:(rewrite Vo; lra)) as Eg. rewrite Vo in Eg.
  set (X := B2R x) in *. change (1 + - X) with (1 - X) in Eg.
  assert (HI : 1 < / X <= 2) by (split; [rewrite <- Rinv_1 at 1; apply Rinv_lt_contravar; lra|replace 2 with (/ / 2) by field; apply Rinv_le_contravar; lra]).
  assert (RI : 1 <= rnd (/ X) <= 2) by (split; [rewrite <- (rint L 1 ltac:(lia)); apply rmono; lra|rewrite <- (rint L 2 ltac:(lia)); apply rmono; lra]).
  destruct (sub_sterb L (lit N 1 0) (div N (lit N 1 0) x) F1 Fi ltac:(rewrite V1, Vi; lra) ltac:(rewrite V1, Vi; apply Rabs_le; lra)) as [Fy Vy]. rewrite V1, Vi in Vy.
  pose proof (rnd_err 53 1024 Hp53 (/ X)) as RE. fold u eta in RE. rewrite (Rabs_pos_eq (/ X)) in RE by lra. assert (uI : u * / X <= u * 2) by (apply Rmult_le_compat_l; lra).
  pose proof (neg3_A L _ Fy ltac:(rewrite Vy; lra)) as Cn. rewrite Vy in Cn.
  pose proof (lip_A 3 _ _ (1 - / X) _ (2 * u + eta) ltac:(lia) Cn ltac:(lra) ltac:(lra) ltac:(replace (1 - rnd (/ X) - (1 - / X)) with (- (rnd (/ X) - / X)) by ring; rewrite Rabs_Ropp; lra)) as Cn2.
  assert (R1 : 24 * u * Rabs (1 - rnd (/ X)) <= 24 * u * 1) by (apply Rmult_le_compat_l; [lra|apply Rabs_le; lra]).
  apply (A_weak _ _ _ _ _ (28 * u)) in Cn2; [|lra].
  pose proof (pos3_A L _ Fs ltac:(rewrite Vs; lra)) as Cp. rewrite Vs in Cp.
  assert (R2 : 137 * u * Rabs (1 - X) <= 137 * u * / 2) by (apply Rmult_le_compat_l; [lra|apply Rabs_le; lra]).
  apply (A_weak _ _ _ _ _ (71 * u)) in Cp; [|lra].
  assert (l0 : u <= - ln X). { pose proof (ln_le_sub1 X ltac:(lra)). lra. }
  pose proof (ln_small (1 - X) ltac:(lra)) as S1. replace (1 - (1 - X)) with X in S1 by ring. pose proof (yln (1 - X) ltac:(lra)) as S2. pose proof (lnb X ltac:(lra)) as LB.
  assert (g0 : / 2 <= - ln (1 - X)). { assert (ln (1 - X) <= ln (/ 2)) by (apply ln_le; lra). assert (ln (/ 2) <= - / 2) by interval. lra. }
  assert (g1 : - ln (1 - X) <= 10 ^ 4). { assert (ln u <= ln (1 - X)) by (apply ln_le; lra). assert (- 100 <= ln u) by (rewrite u_val; interval). lra. }
  rewrite (Rabs_left (ln X)) in El by lra. rewrite (Rabs_left (ln (1 - X))) in Eg by lra. specialize (El ltac:(lra) ltac:(lra)). specialize (Eg ltac:(lra) ltac:(lra)).
  rewrite (Rabs_left (ln X)) in LB by lra.
  assert (LG : (- ln X) * (- ln (1 - X)) <= 1). { apply Rle_trans with (2 * (1 - X) * (- ln (1 - X))); [apply Rmult_le_compat_r; lra|lra]. }
  destruct (rest_E (nlog N x) (nlog1p N (opp N x)) (ln X) (ln (1 - X))) as [Ar Br]; [rewrite (Rabs_left (ln X)) by lra; exact El|rewrite (Rabs_left (ln (1 - X))) by lra; exact Eg|rewrite Rabs_left by lra; lra|rewrite Rabs_left by lra; lra|rewrite !Rabs_left by lra; exact LG|].
  assert (Bn : Rabs (ReLi 3 (1 - / X)) <= 3 / 2). { eapply Rle_trans; [apply li_up; [lia|lra]|]. assert (Rabs (1 - / X) <= 1) by (apply Rabs_le; lra). lra. }
  assert (Bp : Rabs (ReLi 3 (1 - X)) <= 3 / 4). { eapply Rle_trans; [apply li_up; [lia|lra]|]. assert (Rabs (1 - X) <= / 2) by (apply Rabs_le; lra). lra. }
  pose proof (sum_A _ _ _ _ _ _ Cn2 Cp Ar Bn Bp Br) as AS.
  pose proof (Li3_three X ltac:(lra)) as TH. rewrite (Rabs_pos_eq (1 - X)) in TH by lra.
  match type of AS with A _ ?v _ => replace (ReLi 3 X) with v by (cbn [pow] in TH; lra) end.
  eapply A_weak; [exact AS|]. apply (bound3_of X _ (/ 2)); [|lra]. split; [lra|]. eapply Rle_trans; [|apply sizen_min]. rewrite Rabs_pos_eq by lra. apply Rmin_glb; lra.
Qed.
(** 1 < x < 2 *)
Lemma br3D (x : fl) : is_finite x = true -> 1 < B2R x < 2 ->
  A (add N (add N (sub N (opp N (li3_neg N (sub N (lit N 1 0) x))) (li3_pos N (sub N (lit N 1 0) (div N (lit N 1 0) x)))) (lit N 12020569031595943 (-16)))
      (mul N (nlog N x) (add N (lit N 16449340668482264 (-16)) (mul N (nlog N x) (add N (mul N (lit N (-5) (-1)) (nlog N (sub N x (lit N 1 0)))) (mul N (div N (lit N 1 0) (lit N 6 0)) (nlog N x))))))) (ReLi 3 (B2R x)) (bound3 (B2R x)).
Proof.
  intros Fx Hx. destruct ctx as (U & T & V0 & V4 & VH & BG). destruct (int_v L 1 ltac:(lia)) as [F1 V1]. pose proof (above_1 L x ltac:(lra)) as BX.
  destruct (inv_f L x Fx ltac:(rewrite Rabs_pos_eq by lra; lra)) as (Fi & Vi & Di & Bi).
  destruct (sub_sterb L (lit N 1 0) x F1 Fx ltac:(rewrite V1; lra) ltac:(rewrite V1; apply Rabs_le; lra)) as [Fs Vs]. rewrite V1 in Vs.
  destruct (sub_sterb L x (lit N 1 0) Fx F1 ltac:(rewrite V1; lra) ltac:(rewrite V1; apply Rabs_le; lra)) as [Fm Vm]. rewrite V1 in Vm.
  pose proof (below_1 L (sub N x (lit N 1 0)) ltac:(rewrite Vm; lra)) as BM. rewrite Vm in BM.
  pose proof (E_log L HL x Fx ltac:(lra)) as El. pose proof (E_log L HL _ Fm ltac:(rewrite Vm; lra)) as Eg. rewrite Vm in Eg.
  set (X := B2R x) in *. rewrite (Rabs_pos_eq (/ X)) in Di by (left; apply Rinv_0_lt_compat; lra).
  assert (HI : / 2 < / X < 1) by (split; [apply Rinv_lt_contravar; lra|rewrite <- Rinv_1; apply Rinv_lt_contravar; lra]).
  assert (RI : / 2 <= rnd (/ X) <= 1) by (split; [rewrite <- (rhalf L); apply rmono; lra|rewrite <- (rint L 1 ltac:(lia)); apply rmono; lra]).
  destruct (sub_sterb L (lit N 1 0) (div N (lit N 1 0) x) F1 Fi ltac:(rewrite V1, Vi; lra) ltac:(rewrite V1, Vi; apply Rabs_le; lra)) as [Fy Vy]. rewrite V1, Vi in Vy.
  assert (uI : u * / X <= u * 1) by (apply Rmult_le_compat_l; lra).
  pose proof (neg3_A L _ Fs ltac:(rewrite Vs; lra)) as Cn. rewrite Vs in Cn.
  assert (R1 : 24 * u * Rabs (1 - X) <= 24 * u * 1) by (apply Rmult_le_compat_l; [lra|apply Rabs_le; lra]).
  apply (A_weak _ _ _ _ _ (28 * u)) in Cn; [|lra].
  pose proof (pos3_A L _ Fy ltac:(rewrite Vy; lra)) as Cp. rewrite Vy in Cp.
  pose proof (lip_A 3 _ _ (1 - / X) _ (u + eta) ltac:(lia) Cp ltac:(lra) ltac:(lra) ltac:(replace (1 - rnd (/ X) - (1 - / X)) with (- (rnd (/ X) - / X)) by ring; rewrite Rabs_Ropp; lra)) as Cp2.
  assert (R2 : 137 * u * Rabs (1 - rnd (/ X)) <= 137 * u * / 2) by (apply Rmult_le_compat_l; [lra|apply Rabs_le; lra]).
  apply (A_weak _ _ _ _ _ (71 * u)) in Cp2; [|lra].
  assert (l0 : u <= ln X). { pose proof (ln_le_sub1 (/ X) ltac:(lra)) as Q. rewrite ln_Rinv in Q by lra. assert (/ X <= 1 - u); [|lra]. apply (Rmult_le_reg_l X); [lra|]. rewrite Rinv_r by lra. assert ((1 + 2 * u) * (1 - u) <= X * (1 - u)) by (apply Rmult_le_compat_r; lra). assert (u * u <= / 10 ^ 15 * u) by (apply Rmult_le_compat_r; lra). lra. }
  pose proof (ln_le_sub1 X ltac:(lra)) as l2. pose proof (lnb X ltac:(lra)) as LB.
  assert (g0 : u <= - ln (X - 1)) by (pose proof (ln_le_sub1 (X - 1) ltac:(lra)); lra).
  assert (g1 : - ln (X - 1) <= 10 ^ 4). { assert (ln u <= ln (X - 1)) by (apply ln_le; lra). assert (- 100 <= ln u) by (rewrite u_val; interval). lra. }
  rewrite (Rabs_pos_eq (ln X)) in El by lra. rewrite (Rabs_left (ln (X - 1))) in Eg by lra. specialize (El ltac:(lra) ltac:(rewrite Rabs_pos_eq in LB by lra; lra)). specialize (Eg ltac:(lra) ltac:(lra)).
  rewrite (Rabs_pos_eq (ln X)) in LB by lra.
  assert (LG : ln X * (- ln (X - 1)) <= 1).
  { destruct (Rle_dec (X - 1) (/ 2)) as [Q|Q].
    - pose proof (yln (X - 1) ltac:(lra)) as S2. apply Rle_trans with ((X - 1) * (- ln (X - 1))); [apply Rmult_le_compat_r; lra|lra].
    - assert (ln (/ 2) <= ln (X - 1)) by (apply ln_le; lra). assert (- 1 <= ln (/ 2)) by interval. apply Rle_trans with (1 * 1); [apply Rmult_le_compat; lra|lra]. }
  destruct (rest_E (nlog N x) (nlog N (sub N x (lit N 1 0))) (ln X) (ln (X - 1))) as [Ar Br]; [rewrite (Rabs_pos_eq (ln X)) by lra; exact El|rewrite (Rabs_left (ln (X - 1))) by lra; exact Eg|rewrite Rabs_pos_eq by lra; lra|rewrite Rabs_left by lra; lra|rewrite (Rabs_pos_eq (ln X)), Rabs_left by lra; exact LG|].
  assert (Bp : Rabs (ReLi 3 (1 - / X)) <= 3 / 4). { eapply Rle_trans; [apply li_up; [lia|lra]|]. assert (Rabs (1 - / X) <= / 2) by (apply Rabs_le; lra). lra. }
  assert (Bn : Rabs (ReLi 3 (1 - X)) <= 3 / 2). { eapply Rle_trans; [apply li_up; [lia|lra]|]. assert (Rabs (1 - X) <= 1) by (apply Rabs_le; lra). lra. }
  pose proof (sum_A _ _ _ _ _ _ Cn Cp2 Ar Bn Bp Br) as AS.
  pose proof (Li3_three X ltac:(lra)) as TH. rewrite (Rabs_left (1 - X)) in TH by lra. replace (- (1 - X)) with (X - 1) in TH by ring.
  match type of AS with A _ ?v _ => replace (ReLi 3 X) with v by (cbn [pow] in TH; lra) end.
  eapply A_weak; [exact AS|]. apply (bound3_of X _ (/ 2)); [|lra]. split; [lra|]. eapply Rle_trans; [|apply sizen_min]. rewrite Rabs_pos_eq by lra. apply Rmin_glb; lra.
Qed.
Theorem Li3_acc (x : fl) : is_finite x = true -> A (Li3_d N x) (ReLi 3 (B2R x)) (bound3 (B2R x)).
Proof.
  intros Fx. destruct ctx as (U & T & V0 & V4 & VH & BG).
  destruct (int_v L 1 ltac:(lia)) as [F1 V1]. destruct (int_v L (-1) ltac:(lia)) as [Fm Vm]. destruct (int_v L 0 ltac:(lia)) as [F0 W0]. destruct (int_v L 2 ltac:(lia)) as [F2 W2]. destruct (half_v L) as [Fh Vh].
  assert (B1 : forall X, / 2 <= Rabs X -> 10 * u <= bound3 X). { intros X HX. apply (bound3_of X _ (/ 2)); [|lra]. split; [lra|]. eapply Rle_trans; [|apply sizen_min]. apply Rmin_glb; lra. }
  unfold Li3_d. pose proof (Bltb_R 53 1024 Hp53 He53 L) as BL. pose proof (Beqb_R 53 1024 Hp53 He53 L) as BE. change NN with N in BL, BE.
  rewrite (BL x (lit N (-1) 0)), Vm by assumption. case Rlt_bool_spec; intros C1; [exact (br3A x Fx C1)|].
  rewrite (BE x (lit N (-1) 0)), Vm by assumption. case Req_bool_spec; intros C2.
  { rewrite C2. assert (E75 : E (lit N (-75) (-2)) (- (3 / 4)) (3 / 4) 1.6) by (apply E_lit; [rewrite (litR10 _ 2 2) by reflexivity; apply Rabs_le; lra|rewrite Rabs_Ropp, Rabs_pos_eq; lra|lra]).
    pose proof (E_mul L _ _ _ _ _ _ _ _ E75 E_z3 ltac:(lra) ltac:(lra)) as E1. apply A_E in E1. rewrite Li3_m1. replace (- (3 * ReLi 3 1 / 4)) with (- (3 / 4) * ReLi 3 1) by field. eapply A_weak; [exact E1|]. eapply Rle_trans; [|apply B1; rewrite Rabs_left; lra]. lra. }
  rewrite (BL x (lit N 0 0)), W0 by assumption. case Rlt_bool_spec; intros C3.
  { eapply A_weak; [apply (neg3_A L x Fx); lra|]. apply (bound3_of _ _ (Rabs (B2R x))); [split; [apply Rabs_pos|]|].
    - eapply Rle_trans; [|apply sizen_min]. apply Rmin_glb; [apply Rabs_le; lra|lra].
    - pose proof (Rabs_pos (B2R x)). assert (0 <= u * Rabs (B2R x)) by (apply Rmult_le_pos; lra). lra. }
  rewrite (BE x (lit N 0 0)), W0 by assumption. case Req_bool_spec; intros C4.
  { rewrite C4, (ReLi_0 3) by lia. split; [exact Fx|]. rewrite C4, Rminus_eq_0, Rabs_R0. apply (bound3_of 0 _ 0); [|lra]. split; [lra|]. eapply Rle_trans; [|apply sizen_min]. rewrite Rabs_R0. apply Rmin_glb; lra. }
  rewrite (BL x (lit N 5 (-1))), Vh by assumption. case Rlt_bool_spec; intros C5.
  { eapply A_weak; [apply (pos3_A L x Fx); lra|]. apply (bound3_of _ _ (Rabs (B2R x))); [split; [apply Rabs_pos|]|].
    - eapply Rle_trans; [|apply sizen_min]. apply Rmin_glb; [apply Rabs_le; lra|lra].
    - pose proof (Rabs_pos (B2R x)). assert (0 <= u * Rabs (B2R x)) by (apply Rmult_le_pos; lra). lra. }
  rewrite (BE x (lit N 5 (-1))), Vh by assumption. case Req_bool_spec; intros C6.
  { rewrite C6. pose proof half3_num as HN. assert (EH : E (lit N 5372131936080402 (-16)) (ReLi 3 (/ 2)) 3 1.6).
    { apply E_lit; [|pose proof (li_up 3 (/ 2) ltac:(lia) ltac:(lra)) as Q; rewrite (Rabs_pos_eq (/ 2)) in Q by lra; lra|lra]. rewrite (litR10 _ 16 16) by reflexivity. apply Rabs_le_between in HN. apply Rabs_le. lra. }
    apply A_E in EH. eapply A_weak; [exact EH|]. eapply Rle_trans; [|apply B1; rewrite Rabs_pos_eq; lra]. lra. }
  rewrite (BL x (lit N 1 0)), V1 by assumption. case Rlt_bool_spec; intros C7; [apply (br3C x Fx); lra|].
  rewrite (BE x (lit N 1 0)), V1 by assumption. case Req_bool_spec; intros C8.
  { rewrite C8. pose proof (A_E _ _ _ _ E_z3) as Az. eapply A_weak; [exact Az|]. eapply Rle_trans; [|apply B1; rewrite Rabs_R1; lra]. lra. }
  rewrite (BL x (lit N 2 0)), W2 by assumption. case Rlt_bool_spec; intros C9; [apply (br3D x Fx); lra|apply (br3E x Fx); lra].
Qed.
End C.
