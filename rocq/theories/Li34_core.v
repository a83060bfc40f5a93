(** * Real Li3 and Li4 in IEEE double: Lipschitz bounds and the rational cores *)
From Coq Require Import ZArith Reals Bool Lia Lra Psatz List.
From Coquelicot Require Import Coquelicot.
From Interval Require Import Tactic.
From Flocq Require Import Core Relative Sterbenz Mult_error IEEE754.BinarySingleNaN.
From Verif Require Import Num NumR Eval_R NumB NumB_facts Proof_Float Libm Ferr FerrB Fcalc Polylog Polylog_series Polylog_eqs Fourier Consts Cl_pieces Model_LiR Poly_check Cheb_big Proof_Li2 Proof_Li3 Proof_Li4 Ieee Li2_ieee.
From Verif Require Li2_core.
From Verif Require Import Li34_ieee.
Import ListNotations.
Local Open Scope R_scope.

(** ** Lipschitz bounds *)
Lemma over_t_bound n c t : 0 <= c -> 1 <= c -> Rabs (ReLi n t) <= c * Rabs t -> Rabs (over_t (ReLi n) t) <= c.
Proof.
  intros C0 C1 H. unfold over_t. destruct (Req_EM_T t 0) as [->|T]; [rewrite Rabs_R1; lra|]. unfold Rdiv. rewrite Rabs_mult, Rabs_inv. pose proof (Rabs_pos_lt t T) as P.
  apply (Rmult_le_reg_r (Rabs t)); [exact P|]. rewrite Rmult_assoc, Rinv_l by lra. lra.
Qed.
Lemma lip_step n lo hi c : (1 <= n)%nat -> lo <= 0 <= hi -> (hi < 1 \/ (2 <= n)%nat) -> 1 <= c -> (forall t, lo <= t <= hi -> Rabs (ReLi n t) <= c * Rabs t) ->
  forall a b, lo <= a <= hi -> lo <= b <= hi -> Rabs (ReLi (S n) a - ReLi (S n) b) <= c * Rabs (a - b).
Proof.
  intros Hn H0 H1 Hc B a b Ha Hb.
  assert (I : forall t, Rmin b a <= t <= Rmax b a -> lo <= t <= hi) by (intros t; unfold Rmin, Rmax; destruct (Rle_dec b a); lra).
  assert (D : forall t, lo <= t <= hi -> is_derive (ReLi (S n)) t (over_t (ReLi n) t)) by (intros t Ht; apply ReLi_derive; [exact Hn|]; destruct H1 as [H1|H1]; [left; lra|right; exact H1]).
  destruct (MVT_gen (ReLi (S n)) b a (over_t (ReLi n))) as (m & C1 & C2).
  - intros t Ht. apply D, I. lra.
  - intros t Ht. apply continuity_pt_filterlim. apply (ex_derive_continuous (ReLi (S n))). eexists. apply D, I. exact Ht.
  - rewrite C2, Rabs_mult. apply Rmult_le_compat_r; [apply Rabs_pos|]. apply over_t_bound; [lra|lra|]. apply B, I. exact C1.
Qed.
Lemma up_of_lip n lo hi c : (1 <= n)%nat -> lo <= 0 <= hi -> (forall a b, lo <= a <= hi -> lo <= b <= hi -> Rabs (ReLi n a - ReLi n b) <= c * Rabs (a - b)) -> forall t, lo <= t <= hi -> Rabs (ReLi n t) <= c * Rabs t.
Proof. intros Hn H0 L t Ht. pose proof (L t 0 Ht H0) as Q. rewrite (ReLi_0 n), !Rminus_0_r in Q by exact Hn. exact Q. Qed.
Lemma li1_up t : -1 <= t <= / 2 -> Rabs (ReLi 1 t) <= 3 / 2 * Rabs t.
Proof.
  intros Ht. assert (E : ReLi 1 t = - ln (1 - t)) by (change (ReLi 1 t) with (- ln (Rabs (1 - t))); rewrite Rabs_pos_eq by lra; reflexivity). rewrite E. destruct (Rle_dec 0 t) as [P|P].
  - assert (L1 : ln (1 - t) <= 0) by (rewrite <- ln_1; apply ln_le; lra). rewrite !Rabs_pos_eq by lra. rewrite <- ln_Rinv by lra. rewrite <- (ln_exp (3 / 2 * t)). apply ln_le; [apply Rinv_0_lt_compat; lra|]. apply Rle_trans with (1 + 3 / 2 * t + (3 / 2 * t) * (3 / 2 * t) / 2).
    + apply (Rmult_le_reg_l (1 - t)); [lra|]. rewrite Rinv_r by lra. nra.
    + pose proof (exp_ge_taylor (3 / 2 * t) 2 ltac:(lra)) as Z. cbn [sum_f_R0 pow fact Nat.mul Nat.add INR] in Z. lra.
  - assert (L1 : 0 <= ln (1 - t)) by (rewrite <- ln_1; apply ln_le; lra). rewrite Rabs_Ropp, Rabs_pos_eq, Rabs_left by lra. pose proof (ln_le_sub1 (1 - t) ltac:(lra)). lra.
Qed.
Lemma li_lip n a b : (2 <= n)%nat -> -1 <= a <= / 2 -> -1 <= b <= / 2 -> Rabs (ReLi n a - ReLi n b) <= 3 / 2 * Rabs (a - b).
Proof.
  intros Hn. revert a b. destruct n as [|[|n]]; [lia|lia|]. clear Hn. induction n as [|n IH].
  - apply (lip_step 1 (-1) (/ 2) (3 / 2)); [lia|lra|left; lra|lra|exact li1_up].
  - apply (lip_step (S (S n)) (-1) (/ 2) (3 / 2)); [lia|lra|left; lra|lra|]. apply up_of_lip; [lia|lra|exact IH].
Qed.
Lemma li_up n t : (2 <= n)%nat -> -1 <= t <= / 2 -> Rabs (ReLi n t) <= 3 / 2 * Rabs t.
Proof. intros Hn. apply up_of_lip; [lia|lra|]. intros a b. exact (li_lip n a b Hn). Qed.
Lemma li2_up1 t : 0 <= t <= 1 -> Rabs (ReLi 2 t) <= 5 * Rabs t.
Proof.
  intros Ht. pose proof zeta2_lit as Z. apply Rabs_le_between in Z. destruct (Rle_dec t (/ 2)) as [P|P]; [pose proof (li_up 2 t ltac:(lia) ltac:(lra)) as Q; pose proof (Rabs_pos t); lra|].
  rewrite (Rabs_pos_eq t) by lra. destruct (Req_dec t 1) as [->|N1]; [apply Rabs_le; lra|].
  pose proof (Li2_reflection t) as RF. rewrite (Rabs_pos_eq t), (Rabs_pos_eq (1 - t)) in RF by lra.
  pose proof (li_up 2 (1 - t) ltac:(lia) ltac:(lra)) as Q. rewrite (Rabs_pos_eq (1 - t)) in Q by lra. apply Rabs_le_between in Q.
  pose proof (ln_small (1 - t) ltac:(lra)) as S1. replace (1 - (1 - t)) with t in S1 by ring. pose proof (yln (1 - t) ltac:(lra)) as S2.
  assert (L1 : ln (1 - t) <= 0) by (rewrite <- ln_1; apply ln_le; lra).
  assert (B : 0 <= ln t * ln (1 - t) <= 1). { replace (ln t * ln (1 - t)) with ((- ln t) * (- ln (1 - t))) by ring. split; [apply Rmult_le_pos; lra|]. apply Rle_trans with (2 * (1 - t) * (- ln (1 - t))); [apply Rmult_le_compat_r; lra|]. lra. }
  apply Rabs_le. lra.
Qed.
Lemma li_lip1 n a b : (3 <= n)%nat -> 0 <= a <= 1 -> 0 <= b <= 1 -> Rabs (ReLi n a - ReLi n b) <= 5 * Rabs (a - b).
Proof.
  intros Hn. revert a b. destruct n as [|[|[|n]]]; [lia|lia|lia|]. clear Hn. induction n as [|n IH].
  - apply (lip_step 2 0 1 5); [lia|lra|right; lia|lra|exact li2_up1].
  - apply (lip_step (S (S (S n))) 0 1 5); [lia|lra|right; lia|lra|]. apply up_of_lip; [lia|lra|exact IH].
Qed.

(** the size of Li4 on [0,4/5] *)
Lemma li4_rng y : 0 <= y <= 4 / 5 -> ReLi 4 y <= 91 / 100.
Proof.
  intros Hy. assert (Ay : Rabs y < 1) by (rewrite Rabs_pos_eq; lra).
  assert (G : forall n, ReLi n y = y * (1 + y * PSeries (PS_decr_1 (PS_decr_1 (Licoef n))) y) /\ ex_series (fun k => PS_decr_1 (PS_decr_1 (Licoef n)) k * y ^ k)).
  { intros n. assert (X0 : ex_pseries (Licoef n) y) by (apply CV_radius_inside, Licoef_radius, Ay). assert (X1 : ex_pseries (PS_decr_1 (Licoef n)) y).
    { apply CV_radius_inside. rewrite CV_radius_decr_1. apply Licoef_radius, Ay. }
    assert (X2 : ex_pseries (PS_decr_1 (PS_decr_1 (Licoef n))) y). { apply CV_radius_inside. rewrite !CV_radius_decr_1. apply Licoef_radius, Ay. }
    split; [|apply ex_pseries_R in X2; exact X2]. rewrite ReLi_PSeries by exact Ay. rewrite (PSeries_decr_1 (Licoef n)) by exact X0. rewrite (PSeries_decr_1 (PS_decr_1 (Licoef n))) by exact X1. unfold PS_decr_1 at 1. cbn [Licoef]. change (INR 1) with 1. rewrite pow1, Rinv_1. ring. }
  destruct (G 4%nat) as [G4 X4]. destruct (G 1%nat) as [G1 X1].
  assert (LE : 8 * PSeries (PS_decr_1 (PS_decr_1 (Licoef 4))) y <= PSeries (PS_decr_1 (PS_decr_1 (Licoef 1))) y).
  { unfold PSeries. rewrite <- Series_scal_l. apply Series_le; [|exact X1]. intros k. unfold PS_decr_1. cbn [Licoef]. assert (P : 0 <= y ^ k) by (apply pow_le; lra).
    assert (K2 : 2 <= INR (S (S k))) by (rewrite !S_INR; pose proof (pos_INR k); lra). set (m := INR (S (S k))) in *. assert (0 < m ^ 4) by (apply pow_lt; lra). assert (m3 : 8 <= m ^ 3) by (pose proof (pow_incr 2 m 3 ltac:(lra)); lra).
    split; [apply Rmult_le_pos; [lra|]; apply Rmult_le_pos; [left; apply Rinv_0_lt_compat; assumption|exact P]|]. rewrite <- Rmult_assoc. apply Rmult_le_compat_r; [exact P|].
    apply (Rmult_le_reg_r (m ^ 4)); [assumption|]. rewrite Rmult_assoc, Rinv_l by lra. replace (/ m ^ 1 * m ^ 4) with (m ^ 3) by (field; lra). lra. }
  assert (E1 : ReLi 1 y = - ln (1 - y)) by (change (ReLi 1 y) with (- ln (Rabs (1 - y))); rewrite Rabs_pos_eq by lra; reflexivity).
  assert (LB : - ln (1 - y) <= 161 / 100). { assert (ln (/ 5) <= ln (1 - y)) by (apply ln_le; lra). assert (- ln (/ 5) <= 161 / 100) by interval. lra. }
  rewrite G4. rewrite E1 in G1. set (s4 := PSeries _ y) in *. set (s1 := PSeries (PS_decr_1 (PS_decr_1 (Licoef 1))) y) in *.
  assert (y * y * (8 * s4) <= y * y * s1) by (apply Rmult_le_compat_l; [apply Rmult_le_pos; lra|exact LE]). lra.
Qed.

(** ** numerators and denominators *)
Section X.
Notation N := NumE.
Definition num_of (f : N -> N) : ex := match f (V 0) with EDiv (EMul (V _) p) q => p | EDiv p q => p | _ => V 0 end.
Definition den_of (f : N -> N) : ex := match f (V 0) with EDiv _ q => q | _ => V 0 end.
End X.
Definition xP3n := Eval cbv in num_of (li3_neg NumE). Definition xQ3n := Eval cbv in den_of (li3_neg NumE).
Definition xP3p := Eval cbv in num_of (li3_pos NumE). Definition xQ3p := Eval cbv in den_of (li3_pos NumE).
Definition xP4n := Eval cbv in num_of (li4_neg NumE). Definition xQ4n := Eval cbv in den_of (li4_neg NumE).
Definition xP4h := Eval cbv in num_of (li4_half NumE). Definition xQ4h := Eval cbv in den_of (li4_half NumE).
Definition xP4m := Eval cbv in num_of (li4_mid NumE). Definition xQ4m := Eval cbv in den_of (li4_mid NumE).
Notation env y z0 := (fun i => nth i [y] z0).
Lemma split_3n (N : num) z0 y : li3_neg N y = div N (mul N y (evalN N (env y z0) xP3n)) (evalN N (env y z0) xQ3n). Proof. reflexivity. Qed.
Lemma split_3p (N : num) z0 y : li3_pos N y = div N (mul N y (evalN N (env y z0) xP3p)) (evalN N (env y z0) xQ3p). Proof. reflexivity. Qed.
Lemma split_4n (N : num) z0 y : li4_neg N y = div N (mul N y (evalN N (env y z0) xP4n)) (evalN N (env y z0) xQ4n). Proof. reflexivity. Qed.
Lemma split_4h (N : num) z0 y : li4_half N y = div N (mul N y (evalN N (env y z0) xP4h)) (evalN N (env y z0) xQ4h). Proof. reflexivity. Qed.
Lemma split_4m (N : num) z0 y : li4_mid N y = div N (evalN N (env y z0) xP4m) (evalN N (env y z0) xQ4m). Proof. reflexivity. Qed.
Ltac evpoly := cbv [xP3n xQ3n xP3p xQ3p xP4n xQ4n xP4h xQ4h xP4m xQ4m P3n Q3n P3p Q3p P4n Q4n P4h Q4h P4m Q4m li3_neg_cp li3_neg_cq li3_pos_cp li3_pos_cq li4_neg_cp li4_neg_cq li4_half_cp li4_half_cq li4_mid_cp li4_mid_cq plit lit NumLit evalR nth litp fst snd]; ring.
Lemma ev_P3n y : evalR (env y 0) xP3n = plit P3n y. Proof. evpoly. Qed.
Lemma ev_Q3n y : evalR (env y 0) xQ3n = plit Q3n y. Proof. evpoly. Qed.
Lemma ev_P3p y : evalR (env y 0) xP3p = plit P3p y. Proof. evpoly. Qed.
Lemma ev_Q3p y : evalR (env y 0) xQ3p = plit Q3p y. Proof. evpoly. Qed.
Lemma ev_P4n y : evalR (env y 0) xP4n = plit P4n y. Proof. evpoly. Qed.
Lemma ev_Q4n y : evalR (env y 0) xQ4n = plit Q4n y. Proof. evpoly. Qed.
Lemma ev_P4h y : evalR (env y 0) xP4h = plit P4h y. Proof. evpoly. Qed.
Lemma ev_Q4h y : evalR (env y 0) xQ4h = plit Q4h y. Proof. evpoly. Qed.
Lemma ev_P4m y : evalR (env y 0) xP4m = plit P4m y. Proof. evpoly. Qed.
Lemma ev_Q4m y : evalR (env y 0) xQ4m = plit Q4m y. Proof. evpoly. Qed.
Lemma ck_P3n : checkp 53 xP3n (grid (- 2 ^ 40) (2 ^ 36) 16) (relb 40 5728) = true. Proof. vm_compute. reflexivity. Qed.
Lemma ck_Q3n : checkp 53 xQ3n (grid (- 2 ^ 40) (2 ^ 36) 16) (relb 40 5866) = true. Proof. vm_compute. reflexivity. Qed.
Lemma ck_P3p : checkp 53 xP3p (grid 0 (2 ^ 34) 32) (relb 40 36135) = true. Proof. vm_compute. reflexivity. Qed.
Lemma ck_Q3p : checkp 53 xQ3p (grid 0 (2 ^ 34) 32) (relb 40 42956) = true. Proof. vm_compute. reflexivity. Qed.
Lemma ck_P4n : checkp 53 xP4n (grid (- 2 ^ 40) (2 ^ 36) 16) (relb 40 5618) = true. Proof. vm_compute. reflexivity. Qed.
Lemma ck_Q4n : checkp 53 xQ4n (grid (- 2 ^ 40) (2 ^ 36) 16) (relb 40 5695) = true. Proof. vm_compute. reflexivity. Qed.
Lemma ck_P4h : checkp 53 xP4h (grid 0 (2 ^ 34) 32) (relb 40 19272) = true. Proof. vm_compute. reflexivity. Qed.
Lemma ck_Q4h : checkp 53 xQ4h (grid 0 (2 ^ 34) 32) (relb 40 20860) = true. Proof. vm_compute. reflexivity. Qed.
Lemma ck_P4m : checkp 53 xP4m (grid (2 ^ 39) (2 ^ 30) 308) (relb 100 725621) = true. Proof. vm_compute. reflexivity. Qed.
Lemma ck_Q4m : checkp 53 xQ4m (grid (2 ^ 39) (2 ^ 30) 308) (relb 100 774161) = true. Proof. vm_compute. reflexivity. Qed.

Section C.
Variable L : libm 53 1024.
Notation N := (B64 L).
Local Notation NN := (NumB 53 1024 Hp53 He53 L).
Notation E := (E).

Lemma core_x n (f : fl -> fl) eP eQ l0 st cnt cp cq e K lo hi :
  (2 <= n)%nat -> (forall y, f y = div N (mul N y (evalN N (env y (B754_zero false)) eP)) (evalN N (env y (B754_zero false)) eQ)) ->
  checkp 53 eP (grid l0 st cnt) (relb 40 cp) = true -> checkp 53 eQ (grid l0 st cnt) (relb 40 cq) = true -> (0 < st)%Z -> (0 < cnt)%nat ->
  (forall y, lo <= y <= hi -> IZR l0 <= y * s40 <= IZR (l0 + st * Z.of_nat cnt)) -> -1 <= lo <= 0 -> 0 <= hi <= / 2 ->
  (forall y, lo <= y <= hi -> y <> 0 -> Rabs (y * (evalR (env y 0) eP / evalR (env y 0) eQ) - ReLi n y) <= e * Rabs y) -> 0 <= e <= / 100 ->
  evalR (env 0 0) eP <= 8 / 5 * evalR (env 0 0) eQ -> (0 <= cp <= 10 ^ 9)%Z -> (0 <= cq <= 10 ^ 9)%Z -> (5 / 3 * (IZR cp / 1000 + IZR cq / 1000) + 4) * u + e <= K * u ->
  forall y, is_finite y = true -> lo <= B2R y <= hi -> A (f y) (ReLi n (B2R y)) (K * u * Rabs (B2R y) + 45 * eta).
Proof.
  intros Hn EK CP CQ Hst Hcnt HG Hlo Hhi HV He P0 Hcp Hcq HK y Fy Hy.
  destruct (poly_ok L eP l0 st cnt 40 cp y CP ltac:(lia) Hst Hcnt Fy (HG _ Hy)) as (F1 & B1 & E1). destruct (poly_ok L eQ l0 st cnt 40 cq y CQ ltac:(lia) Hst Hcnt Fy (HG _ Hy)) as (F2 & B2 & E2).
  set (P := evalR (env (B2R y) 0) eP) in *. set (Q := evalR (env (B2R y) 0) eQ) in *.
  assert (W : P <= 8 / 5 * Q).
  { destruct (Req_dec (B2R y) 0) as [Z|Z]; [unfold P, Q; rewrite Z; exact P0|]. pose proof (HV _ Hy Z) as V. fold P Q in V. pose proof (li_up n (B2R y) Hn ltac:(lra)) as U. pose proof (Rabs_pos_lt _ Z) as Y0.
    assert (G : Rabs (B2R y) * (P / Q) <= 8 / 5 * Rabs (B2R y)).
    { assert (0 < P / Q) by (apply Rdiv_lt_0_compat; lra). rewrite <- (Rabs_pos_eq (P / Q)) by lra. rewrite <- Rabs_mult. replace (B2R y * (P / Q)) with ((B2R y * (P / Q) - ReLi n (B2R y)) + ReLi n (B2R y)) by ring.
      eapply Rle_trans; [apply Rabs_triang|]. assert (e * Rabs (B2R y) <= / 100 * Rabs (B2R y)) by (apply Rmult_le_compat_r; lra). lra. }
    assert (P / Q <= 8 / 5) by (apply (Rmult_le_reg_l (Rabs (B2R y))); [exact Y0|lra]). replace P with (P / Q * Q) by (field; lra). apply Rmult_le_compat_r; lra. }
  assert (C1 : 0 <= IZR cp / 1000 <= 10 ^ 6) by (assert (0 <= IZR cp <= IZR (10 ^ 9)) by (split; apply IZR_le; lia); change (IZR (10 ^ 9)) with 1000000000 in H; lra).
  assert (C2 : 0 <= IZR cq / 1000 <= 10 ^ 6) by (assert (0 <= IZR cq <= IZR (10 ^ 9)) by (split; apply IZR_le; lia); change (IZR (10 ^ 9)) with 1000000000 in H; lra).
  assert (Y1 : Rabs (B2R y) <= 1) by (apply Rabs_le; lra).
  destruct (ratio_A L y _ _ P Q (IZR cp / 1000) (IZR cq / 1000) Fy Y1 F1 F2 ltac:(lra) ltac:(lra) E1 E2 C1 C2) as [F D]. rewrite EK. split; [exact F|].
  pose proof (Rabs_pos (B2R y)) as Y0. pose proof u_b as U. pose proof eta_lo as T.
  assert (V : Rabs (B2R y * (P / Q) - ReLi n (B2R y)) <= e * Rabs (B2R y)).
  { destruct (Req_dec (B2R y) 0) as [Z|Z]; [rewrite Z, Rmult_0_l, (ReLi_0 n), Rminus_0_r, Rabs_R0 by lia; lra|exact (HV _ Hy Z)]. }
  match goal with |- Rabs (?f - _) <= _ => replace (f - ReLi n (B2R y)) with ((f - B2R y * (P / Q)) + (B2R y * (P / Q) - ReLi n (B2R y))) by ring end.
  eapply Rle_trans; [apply Rabs_triang|]. assert (((5 / 3 * (IZR cp / 1000 + IZR cq / 1000) + 4) * u + e) * Rabs (B2R y) <= K * u * Rabs (B2R y)) by (apply Rmult_le_compat_r; lra). lra.
Qed.
Lemma s40_val : s40 = 1099511627776. Proof. reflexivity. Qed.
Ltac zero_ok := apply (Li2_core.zero_gen 53 1024 Hp53 He53 ltac:(lia) ltac:(lia) ltac:(lia) L); vm_compute; reflexivity.
Ltac gneg := intros y1 H1; rewrite s40_val; change (- 2 ^ 40 + 2 ^ 36 * Z.of_nat 16)%Z with 0%Z; change (- 2 ^ 40)%Z with (-1099511627776)%Z; lra.
Ltac gpos := intros y1 H1; rewrite s40_val; change (0 + 2 ^ 34 * Z.of_nat 32)%Z with 549755813888%Z; lra.
Lemma neg3_A (y : fl) : is_finite y = true -> -1 <= B2R y <= 0 -> A (li3_neg N y) (ReLi 3 (B2R y)) (24 * u * Rabs (B2R y) + 45 * eta).
Proof.
  apply (core_x 3 (li3_neg N) xP3n xQ3n (- 2 ^ 40) (2 ^ 36) 16 5728 5866 (51 / 10 ^ 18)); [lia|intros t; exact (split_3n (B64 L) (B754_zero false) t)|exact ck_P3n|exact ck_Q3n|lia|lia|gneg|lra|lra| |lra|zero_ok|lia|lia|rewrite u_val; lra].
  intros y0 Hy Hz. rewrite ev_P3n, ev_Q3n. destruct (ratio_list_ok _ _ _ _ _ _ _ _ _ _ _ check_3n y0 ltac:(lra)) as [Q0 U].
  destruct (scale_ratio P3n Q3n 24 y0 eq_refl eq_refl ltac:(lra)) as [N0 EE]. destruct (li3_neg_accuracy eps_d y0 Hy) as (v & V1 & V2). rewrite (neg3_eval eps_d y0 N0) in V1. injection V1 as <-. rewrite (Rabs_left1 y0) by lra. exact V2.
Qed.
Lemma pos3_A (y : fl) : is_finite y = true -> 0 <= B2R y <= / 2 -> A (li3_pos N y) (ReLi 3 (B2R y)) (137 * u * Rabs (B2R y) + 45 * eta).
Proof.
  apply (core_x 3 (li3_pos N) xP3p xQ3p 0 (2 ^ 34) 32 36135 42956 (31 / 10 ^ 18)); [lia|intros t; exact (split_3p (B64 L) (B754_zero false) t)|exact ck_P3p|exact ck_Q3p|lia|lia|gpos|lra|lra| |lra|zero_ok|lia|lia|rewrite u_val; lra].
  intros y0 Hy Hz. rewrite ev_P3p, ev_Q3p. destruct (ratio_list_ok _ _ _ _ _ _ _ _ _ _ _ check_3p y0 (half_iv y0 ltac:(lra))) as [Q0 U].
  destruct (scale_ratio P3p Q3p 23 y0 eq_refl eq_refl ltac:(lra)) as [N0 EE]. destruct (li3_pos_accuracy eps_d y0 ltac:(lra)) as (v & V1 & V2). rewrite (pos3_eval eps_d y0 N0) in V1. injection V1 as <-. rewrite (Rabs_pos_eq y0) by lra. exact V2.
Qed.
Lemma neg4_A (y : fl) : is_finite y = true -> -1 <= B2R y <= 0 -> A (li4_neg N y) (ReLi 4 (B2R y)) (24 * u * Rabs (B2R y) + 45 * eta).
Proof.
  apply (core_x 4 (li4_neg N) xP4n xQ4n (- 2 ^ 40) (2 ^ 36) 16 5618 5695 (21 / 10 ^ 18)); [lia|intros t; exact (split_4n (B64 L) (B754_zero false) t)|exact ck_P4n|exact ck_Q4n|lia|lia|gneg|lra|lra| |lra|zero_ok|lia|lia|rewrite u_val; lra].
  intros y0 Hy Hz. rewrite ev_P4n, ev_Q4n. destruct (ratio_list_ok _ _ _ _ _ _ _ _ _ _ _ check_4n y0 ltac:(lra)) as [Q0 U].
  destruct (scale_ratio P4n Q4n 24 y0 eq_refl eq_refl ltac:(lra)) as [N0 EE]. destruct (li4_neg_accuracy eps_d y0 Hy) as (v & V1 & V2). rewrite (neg4_eval eps_d y0 N0) in V1. injection V1 as <-. rewrite (Rabs_left1 y0) by lra. exact V2.
Qed.
Lemma half4_A (y : fl) : is_finite y = true -> 0 <= B2R y <= / 2 -> A (li4_half N y) (ReLi 4 (B2R y)) (72 * u * Rabs (B2R y) + 45 * eta).
Proof.
  apply (core_x 4 (li4_half N) xP4h xQ4h 0 (2 ^ 34) 32 19272 20860 (101 / 10 ^ 18)); [lia|intros t; exact (split_4h (B64 L) (B754_zero false) t)|exact ck_P4h|exact ck_Q4h|lia|lia|gpos|lra|lra| |lra|zero_ok|lia|lia|rewrite u_val; lra].
  intros y0 Hy Hz. rewrite ev_P4h, ev_Q4h. destruct (ratio_list_ok _ _ _ _ _ _ _ _ _ _ _ check_4h y0 (half_iv y0 ltac:(lra))) as [Q0 U].
  destruct (scale_ratio P4h Q4h 23 y0 eq_refl eq_refl ltac:(lra)) as [N0 EE]. destruct (li4_half_accuracy eps_d y0 ltac:(lra)) as (v & V1 & V2). rewrite (half4_eval eps_d y0 N0) in V1. injection V1 as <-. rewrite (Rabs_pos_eq y0) by lra. exact V2.
Qed.
Lemma mid4_A (y : fl) : is_finite y = true -> / 2 <= B2R y <= 4 / 5 -> A (li4_mid N y) (ReLi 4 (B2R y)) (1398 * u + eta).
Proof.
  intros Fy Hy. assert (G : IZR (2 ^ 39) <= B2R y * s40 <= IZR (2 ^ 39 + 2 ^ 30 * Z.of_nat 308)) by (rewrite s40_val; change (2 ^ 39 + 2 ^ 30 * Z.of_nat 308)%Z with 880468295680%Z; change (2 ^ 39)%Z with 549755813888%Z; lra).
  destruct (poly_ok L xP4m _ _ _ 100 _ y ck_P4m ltac:(lia) ltac:(lia) ltac:(lia) Fy G) as (F1 & B1 & E1). destruct (poly_ok L xQ4m _ _ _ 100 _ y ck_Q4m ltac:(lia) ltac:(lia) ltac:(lia) Fy G) as (F2 & B2 & E2).
  pose proof (split_4m (B64 L) (B754_zero false) y) as SP. change (car N) with fl in SP. rewrite SP. clear SP.
  set (pf := evalN N _ xP4m) in *. set (qf := evalN N _ xQ4m) in *. set (P := evalR (env (B2R y) 0) xP4m) in *. set (Q := evalR (env (B2R y) 0) xQ4m) in *.
  assert (AC : Rabs (P / Q - ReLi 4 (B2R y)) <= 11 / 10 ^ 18).
  { unfold P, Q. rewrite ev_P4m, ev_Q4m. destruct (ratio_list_ok _ _ _ _ _ _ _ _ _ _ _ check_4m (B2R y) ltac:(lra)) as [Q0 U0].
    destruct (scale_ratio P4m Q4m 28 (B2R y) eq_refl eq_refl ltac:(lra)) as [N0 EE]. destruct (li4_mid_accuracy eps_d (B2R y) ltac:(lra)) as (v & V1 & V2). rewrite (mid4_eval eps_d (B2R y) N0) in V1. injection V1 as <-. exact V2. }
  pose proof (li4_rng (B2R y) ltac:(lra)) as R4. clearbody P Q. pose proof u_b as U. pose proof eta_lo as T. pose proof Vhi_big as VB. pose proof Vhi_ge as VH. pose proof u_val as UV.
  set (pv := B2R pf) in *. set (qv := B2R qf) in *.
  assert (PQ : 0 < P / Q <= 92 / 100) by (split; [apply Rdiv_lt_0_compat; lra|apply Rabs_le_between in AC; lra]).
  assert (PQ2 : P <= 92 / 100 * Q) by (replace P with (P / Q * Q) by (field; lra); apply Rmult_le_compat_r; lra).
  assert (Pb : 99 / 100 * P <= pv <= 101 / 100 * P). { apply Rabs_le_between in E1. assert (725621 / 1000 * u * P <= / 100 * P) by (apply Rmult_le_compat_r; lra). lra. }
  assert (Qb : 999 / 1000 * Q <= qv <= 101 / 100 * Q). { apply Rabs_le_between in E2. assert (774161 / 1000 * u * Q <= / 1000 * Q) by (apply Rmult_le_compat_r; lra). lra. }
  set (g := pv / qv). assert (Gv : 0 < g <= 95 / 100). { unfold g. split; [apply Rdiv_lt_0_compat; lra|]. apply (Rmult_le_reg_r qv); [lra|]. unfold Rdiv. rewrite Rmult_assoc, Rinv_l by lra. lra. }
  assert (I1 : 0 < / qv * / Q) by (apply Rmult_lt_0_compat; apply Rinv_0_lt_compat; lra).
  assert (D6 : Rabs (g - P / Q) <= 93 / 100 * (1499782 / 1000 * u)).
  { replace (g - P / Q) with (((pv - P) * Q + - (P * (qv - Q))) * (/ qv * / Q)) by (unfold g; field; lra). rewrite Rabs_mult. rewrite (Rabs_pos_eq (/ qv * / Q)) by lra.
    apply Rle_trans with (1499782 / 1000 * u * P * Q * (/ qv * / Q)).
    - apply Rmult_le_compat_r; [lra|]. eapply Rle_trans; [apply Rabs_triang|]. rewrite Rabs_Ropp, !Rabs_mult, (Rabs_pos_eq Q), (Rabs_pos_eq P) by lra.
      assert (Rabs (pv - P) * Q <= 725621 / 1000 * u * P * Q) by (apply Rmult_le_compat_r; lra). assert (P * Rabs (qv - Q) <= P * (774161 / 1000 * u * Q)) by (apply Rmult_le_compat_l; lra). lra.
    - replace (1499782 / 1000 * u * P * Q * (/ qv * / Q)) with (P * / qv * (1499782 / 1000 * u)) by (field; lra).
      apply Rmult_le_compat_r; [lra|]. apply (Rmult_le_reg_r qv); [lra|]. rewrite Rmult_assoc, Rinv_l by lra. lra. }
  destruct (div_r 53 1024 Hp53 He53 ltac:(lia) ltac:(lia) ltac:(lia) L pf qf F1 ltac:(fold qv; lra)) as [F3 V3]. { fold pv qv g. rewrite Rabs_pos_eq by lra. lra. }
  fold pv qv g in V3. pose proof (rnd_err 53 1024 Hp53 g) as R3. fold u eta in R3. rewrite <- V3, (Rabs_pos_eq g) in R3 by lra. split; [exact F3|]. change (div N pf qf) with (div NN pf qf).
  assert (u * g <= u * (95 / 100)) by (apply Rmult_le_compat_l; lra).
  replace (B2R (div NN pf qf) - ReLi 4 (B2R y)) with ((B2R (div NN pf qf) - g) + ((g - P / Q) + (P / Q - ReLi 4 (B2R y)))) by ring. eapply Rle_trans; [apply Rabs_triang|]. assert (Rabs ((g - P / Q) + (P / Q - ReLi 4 (B2R y))) <= 93 / 100 * (1499782 / 1000 * u) + 11 / 10 ^ 18) by (eapply Rle_trans; [apply Rabs_triang|]; lra). lra.
Qed.
End C.
