(** * Accuracy of the real trilogarithm, in exact arithmetic *)
From Coq Require Import ZArith Reals List Bool Lra Lia Psatz.
From Coquelicot Require Import Coquelicot.
From Verif Require Import Num NumR Eval_R Cheb Polylog Polylog_series Polylog_eqs Fourier Poly_check Cheb_big Consts Model_LiR Proof_Li2.
Import ListNotations.
Local Open Scope R_scope.

Definition P3n := li3_neg_cp NumLit. Definition Q3n := li3_neg_cq NumLit.
Definition P3p := li3_pos_cp NumLit. Definition Q3p := li3_pos_cq NumLit.

(** ** numerical values *)
Fixpoint evZ (l : list Z) (a : Z) : Z := match l with [] => 0%Z | c :: l' => (c + a * evZ l' a)%Z end.
Lemma evZ_ok l a : pz l (IZR a) = IZR (evZ l a).
Proof. induction l as [|c l IH]; cbn [pz evZ]; [reflexivity|]. rewrite IH, plus_IZR, mult_IZR. reflexivity. Qed.
Lemma refN_bound n y : (1 <= n)%nat -> -1 <= y <= 0 -> Rabs (y * (pz (rf_poly refN n) y / IZR (rf_den refN n)) - ReLi n y) <= / 10 ^ 22 * Rabs y.
Proof.
  intros Hn Hy. pose proof (ref_bound _ _ _ _ _ _ _ _ refN_ok n y Hn ltac:(lra)) as H.
  p10 22%nat in H. unfold Rdiv in H. rewrite Rmult_1_l in H. exact H.
Qed.
(** a decimal for Li_n(-1): [m/10^k] is within e/10^k of it *)
Definition m1_check (n : nat) (m k e : Z) : bool :=
  let a := evZ (rf_poly refN n) (-1) in let d := rf_den refN n in
  ((0 <? d) && (0 <=? k) && (Z.abs (- a * 10 ^ k - m * d) <=? e * d))%Z%bool.
Lemma m1_ok n m k e : (1 <= n)%nat -> m1_check n m k e = true -> Rabs (IZR m / IZR (10 ^ k) - ReLi n (-1)) <= IZR e / IZR (10 ^ k) + / 10 ^ 22.
Proof.
  intros Hn. unfold m1_check. rewrite !andb_true_iff, Z.ltb_lt, !Z.leb_le. intros [[Hd Hk] H].
  pose proof (refN_bound n (-1) Hn ltac:(lra)) as B. rewrite evZ_ok in B. set (a := evZ _ _) in *. set (d := rf_den refN n) in *.
  replace (Rabs (-1)) with 1 in B by (rewrite Rabs_left; lra).
  assert (D : 0 < IZR d) by (apply (IZR_lt 0); lia). assert (T : 0 < IZR (10 ^ k)) by (apply (IZR_lt 0); apply Z.pow_pos_nonneg; lia).
  assert (A : Rabs (IZR m / IZR (10 ^ k) - (-1) * (IZR a / IZR d)) <= IZR e / IZR (10 ^ k)).
  { apply IZR_le in H. rewrite abs_IZR, minus_IZR, !mult_IZR, opp_IZR in H.
    apply (Rmult_le_reg_r (IZR d * IZR (10 ^ k))); [nra|].
    rewrite <- (Rabs_pos_eq (IZR d * IZR (10 ^ k))) at 1 by nra. rewrite <- Rabs_mult, <- Rabs_Ropp.
    replace (- ((IZR m / IZR (10 ^ k) - -1 * (IZR a / IZR d)) * (IZR d * IZR (10 ^ k)))) with (- IZR a * IZR (10 ^ k) - IZR m * IZR d) by (field; lra).
    replace (IZR e / IZR (10 ^ k) * (IZR d * IZR (10 ^ k))) with (IZR e * IZR d) by (field; lra). exact H. }
  replace (IZR m / IZR (10 ^ k) - ReLi n (-1)) with ((IZR m / IZR (10 ^ k) - -1 * (IZR a / IZR d)) + (-1 * (IZR a / IZR d) - ReLi n (-1))) by ring.
  eapply Rle_trans; [apply Rabs_triang|]. lra.
Qed.
(** exact evaluation at a rational point *)
Fixpoint evQ (l : list Z) (a b : Z) : Z * Z :=
  match l with [] => (0, 1)%Z | c :: l' => let '(n, s) := evQ l' a b in (c * b * s + a * n, b * s)%Z end.
Lemma evQ_ok l a b : (0 < b)%Z -> (0 < snd (evQ l a b))%Z /\ pz l (IZR a / IZR b) = IZR (fst (evQ l a b)) / IZR (snd (evQ l a b)).
Proof.
  intros Hb. assert (B : 0 < IZR b) by (apply (IZR_lt 0); lia). induction l as [|c l [S IH]]; [cbn; split; [lia|lra]|]. cbn [pz evQ]. destruct (evQ l a b) as [n s]. cbn [fst snd] in *.
  split; [nia|]. rewrite IH, plus_IZR, !mult_IZR. assert (0 < IZR s) by (apply (IZR_lt 0); lia). field. lra.
Qed.
(** a decimal for Li_n(1/2) *)
Definition half_check (n : nat) (m k e : Z) : bool :=
  let '(a, s) := evQ (rf_poly refH n) 1 2 in let d := (2 * s * rf_den refH n)%Z in
  ((0 <? d) && (0 <=? k) && (Z.abs (a * 10 ^ k - m * d) <=? e * d))%Z%bool.
Lemma half_ok n m k e : (1 <= n)%nat -> half_check n m k e = true -> Rabs (IZR m / IZR (10 ^ k) - ReLi n (/ 2)) <= IZR e / IZR (10 ^ k) + / 10 ^ 22.
Proof.
  intros Hn. unfold half_check. pose proof (evQ_ok (rf_poly refH n) 1 2 ltac:(lia)) as [S E]. destruct (evQ _ _ _) as [a s]. cbn [fst snd] in *.
  rewrite !andb_true_iff, Z.ltb_lt, !Z.leb_le. intros [[Hd Hk] H].
  pose proof (refH_bound n (/ 2) Hn ltac:(lra)) as B. replace (IZR 1 / IZR 2) with (/ 2) in E by lra. rewrite E in B.
  assert (SS : 0 < IZR s) by (apply (IZR_lt 0); lia).
  assert (D : 0 < IZR (rf_den refH n)) by (apply (IZR_lt 0); nia). assert (T : 0 < IZR (10 ^ k)) by (apply (IZR_lt 0); apply Z.pow_pos_nonneg; lia).
  set (d := rf_den refH n) in *.
  assert (A : Rabs (IZR m / IZR (10 ^ k) - / 2 * (IZR a / IZR s / IZR d)) <= IZR e / IZR (10 ^ k)).
  { apply IZR_le in H. rewrite abs_IZR, minus_IZR, !mult_IZR in H. assert (0 < 2 * IZR s * IZR d) by (apply Rmult_lt_0_compat; lra).
    apply (Rmult_le_reg_r ((2 * IZR s * IZR d) * IZR (10 ^ k))); [nra|].
    rewrite <- (Rabs_pos_eq ((2 * IZR s * IZR d) * IZR (10 ^ k))) at 1 by nra. rewrite <- Rabs_mult, <- Rabs_Ropp.
    replace (- ((IZR m / IZR (10 ^ k) - / 2 * (IZR a / IZR s / IZR d)) * (2 * IZR s * IZR d * IZR (10 ^ k)))) with (IZR a * IZR (10 ^ k) - IZR m * (2 * IZR s * IZR d)) by (field; lra).
    replace (IZR e / IZR (10 ^ k) * (2 * IZR s * IZR d * IZR (10 ^ k))) with (IZR e * (2 * IZR s * IZR d)) by (field; lra). exact H. }
  replace (IZR m / IZR (10 ^ k) - ReLi n (/ 2)) with ((IZR m / IZR (10 ^ k) - / 2 * (IZR a / IZR s / IZR d)) + (/ 2 * (IZR a / IZR s / IZR d) - ReLi n (/ 2))) by ring.
  eapply Rle_trans; [apply Rabs_triang|]. lra.
Qed.
Lemma half3_num : Rabs (5372131936080402400 / 10 ^ 19 - ReLi 3 (/ 2)) <= 600 / 10 ^ 19.
Proof.
  pose proof (half_ok 3 5372131936080402400 19 599 ltac:(lia) ltac:(vm_compute; reflexivity)) as H.
  p10 19%nat in H. eapply Rle_trans; [exact H|]. lra.
Qed.
Lemma eta3_num : Rabs (- 9015426773696957140498 / 10 ^ 22 - ReLi 3 (-1)) <= 4 / 10 ^ 22.
Proof.
  pose proof (m1_ok 3 (-9015426773696957140498) 22 2 ltac:(lia) ltac:(vm_compute; reflexivity)) as H.
  p10 22%nat in H. eapply Rle_trans; [exact H|]. lra.
Qed.
Lemma zeta3_num : Rabs (12020569031595942853997 / 10 ^ 22 - ReLi 3 1) <= 7 / 10 ^ 22.
Proof. pose proof eta3_num as H. rewrite Li3_m1 in H. apply Rabs_le_between in H. apply Rabs_le. lra. Qed.

(** ** the cores *)
Lemma neg3_eval ep x : plit Q3n x <> 0 -> li3_neg (NumR ep) (Some x) = Some (x * (plit P3n x / plit Q3n x)).
Proof.
  intros H. unfold li3_neg. cbn [NumR add mul div car aref li3_neg_cp li3_neg_cq nth lit lift2].
  cbn [P3n Q3n li3_neg_cp li3_neg_cq plit lit NumLit] in *. unfold litp in *. cbn [fst snd] in *.
  rewrite odiv_some.
  - f_equal. unfold Rdiv. rewrite !Rmult_assoc. f_equal. f_equal; [ring|]. f_equal. ring.
  - intros E. apply H. etransitivity; [|exact E]. ring.
Qed.
Lemma pos3_eval ep x : plit Q3p x <> 0 -> li3_pos (NumR ep) (Some x) = Some (x * (plit P3p x / plit Q3p x)).
Proof.
  intros H. unfold li3_pos. cbn [NumR add mul div car aref li3_pos_cp li3_pos_cq nth lit lift2].
  cbn [P3p Q3p li3_pos_cp li3_pos_cq plit lit NumLit] in *. unfold litp in *. cbn [fst snd] in *.
  rewrite odiv_some.
  - f_equal. unfold Rdiv. rewrite !Rmult_assoc. f_equal. f_equal; [ring|]. f_equal. ring.
  - intros E. apply H. etransitivity; [|exact E]. ring.
Qed.
Lemma check_3n : ratio_list (-1) 1 0 1 (split_iv 16 (-1) 0 1 16) (zs_of 24 P3n) (zs_of 24 Q3n) (rf_poly refN 3) (rf_den refN 3) 50 (10 ^ 18) = true.
Proof. vm_compute. reflexivity. Qed.
Lemma check_3p : ratio_list 0 1 1 2 (split_iv 16 0 1 2 16) (zs_of 23 P3p) (zs_of 23 Q3p) (rf_poly refH 3) (rf_den refH 3) 30 (10 ^ 18) = true.
Proof. vm_compute. reflexivity. Qed.
Lemma core_err_abs n y a w e1 e2 : Rabs (a - w) <= e1 -> Rabs (y * w - ReLi n y) <= e2 * Rabs y -> Rabs (y * a - ReLi n y) <= (e1 + e2) * Rabs y.
Proof.
  intros H1 H2. replace (y * a - ReLi n y) with (y * (a - w) + (y * w - ReLi n y)) by ring. eapply Rle_trans; [apply Rabs_triang|].
  rewrite Rabs_mult. pose proof (Rabs_pos y). nra.
Qed.
Theorem li3_neg_accuracy ep y : -1 <= y <= 0 -> exists v, li3_neg (NumR ep) (Some y) = Some v /\ Rabs (v - ReLi 3 y) <= 51 / 10 ^ 18 * - y.
Proof.
  intros Hy. destruct (ratio_list_ok _ _ _ _ _ _ _ _ _ _ _ check_3n y ltac:(lra)) as [Q0 U].
  destruct (scale_ratio P3n Q3n 24 y eq_refl eq_refl ltac:(lra)) as [N E]. eexists. split; [apply neg3_eval; exact N|]. rewrite E.
  eapply Rle_trans; [apply (core_err_abs 3 y _ _ _ _ U (refN_bound 3 y ltac:(lia) Hy))|].
  replace (Rabs y) with (- y) by (rewrite Rabs_left1; lra). apply Rmult_le_compat_r; [lra|]. p10 18%nat. lra.
Qed.
Theorem li3_pos_accuracy ep y : 0 < y <= / 2 -> exists v, li3_pos (NumR ep) (Some y) = Some v /\ Rabs (v - ReLi 3 y) <= 31 / 10 ^ 18 * y.
Proof.
  intros Hy. destruct (ratio_list_ok _ _ _ _ _ _ _ _ _ _ _ check_3p y (half_iv y Hy)) as [Q0 U].
  destruct (scale_ratio P3p Q3p 23 y eq_refl eq_refl ltac:(lra)) as [N E]. eexists. split; [apply pos3_eval; exact N|]. rewrite E.
  eapply Rle_trans; [apply (core_err 3 y _ _ _ _ _ ltac:(lra) U (refH_bound 3 y ltac:(lia) Hy) eq_refl)|].
  apply Rmult_le_compat_r; [lra|]. p10 18%nat. lra.
Qed.
(** ** the theorem *)
Lemma zeta2_lit : Rabs (16449340668482264 / 10 ^ 16 - ReLi 2 1) <= 37 / 10 ^ 18.
Proof. rewrite basel. pose proof PI_dec as P. apply Rabs_le_between in P. cbn [pow]. apply Rabs_le. nra. Qed.

Lemma lnb x : / 2 <= x <= 2 -> Rabs (ln x) <= 7 / 10.
Proof.
  intros H. pose proof ln2_dec as L. apply Rabs_le_between in L.
  assert (ln x <= ln 2) by (destruct (Req_dec x 2) as [->|]; [lra|left; apply ln_increasing; lra]).
  assert (- ln 2 <= ln x). { rewrite <- ln_Rinv by lra. destruct (Req_dec x (/2)) as [->|]; [lra|left; apply ln_increasing; lra]. }
  apply Rabs_le. lra.
Qed.
Lemma Rabs_comb a b A B : Rabs a <= A -> Rabs b <= B -> Rabs (a + b) <= A + B.
Proof. intros. eapply Rle_trans; [apply Rabs_triang|]. lra. Qed.

Theorem Li3_d_accuracy x : exists v, Li3_d RD (Some x) = Some v /\
  Rabs (v - ReLi 3 x) <= 3 / 10 ^ 16 * Rmin 1 (Rabs x) + 1 / 10 ^ 16 * ln (Rmax 1 (Rabs x)).
Proof.
  unfold Li3_d, RD. cbn [NumR lit car ltb eqb sub add mul div opp nlog nlog1p ocmp lift1 lift2].
  fold (NumR eps_d). rewrite !litR_int, litR_half, litR_mhalf.
  replace (litR 16449340668482264 (-16)) with (16449340668482264 / 10 ^ 16) by (rewrite litR_dec; p10 16%nat; reflexivity).
  replace (litR 12020569031595943 (-16)) with (12020569031595943 / 10 ^ 16) by (rewrite litR_dec; p10 16%nat; reflexivity).
  replace (litR 5372131936080402 (-16)) with (5372131936080402 / 10 ^ 16) by (rewrite litR_dec; p10 16%nat; reflexivity).
  pose proof zeta2_lit as Z2. pose proof zeta3_num as Z3. pose proof half3_num as H3.
  set (z2 := 16449340668482264 / 10 ^ 16) in *.
  assert (Z3' : Rabs (12020569031595943 / 10 ^ 16 - ReLi 3 1) <= 16 / 10 ^ 18) by (apply Rabs_le_between in Z3; apply Rabs_le; lra).
  clear Z3. set (z3 := 12020569031595943 / 10 ^ 16) in *.
  rewrite !(odiv_some 1 6) by lra. cbn [lift2].
  destruct (Rlt_le_dec x (-1)) as [L|L].
  { rewrite Rltb_true by exact L. rewrite (odiv_some 1), olog_some by lra. cbn [lift1 lift2].
    assert (Y : -1 <= 1 / x <= 0).
    { unfold Rdiv. rewrite Rmult_1_l. replace (/ x) with (- / (- x)) by (field; lra).
      assert (0 < / - x) by (apply Rinv_0_lt_compat; lra). assert (/ - x <= / 1) by (apply Rinv_le_contravar; lra). lra. }
    destruct (li3_neg_accuracy eps_d (1 / x) Y) as (w & -> & W). cbn [lift2].
    eexists. split; [reflexivity|]. rewrite Rmin_left, Rmax_right by (rewrite Rabs_left; lra). rewrite (Rabs_left x) by lra.
    pose proof (Li3_inversion (-1) x (or_intror eq_refl) ltac:(lra)) as IV. rewrite (Rabs_left x), Li2_m1 in IV by lra.
    replace (/ x) with (1 / x) in IV by (unfold Rdiv; ring).
    assert (LN : 0 <= ln (- x)) by (rewrite <- ln_1; left; apply ln_increasing; lra). set (l := ln (- x)) in *. cbn [pow] in IV.
    replace (w - l * (z2 + 1 / 6 * l * l) - ReLi 3 x) with ((w - ReLi 3 (1 / x)) + l * - (z2 - ReLi 2 1)) by nra.
    eapply Rle_trans; [apply Rabs_comb; [exact W|]|]. 
    - rewrite Rabs_mult, Rabs_Ropp, (Rabs_pos_eq l) by exact LN. apply Rmult_le_compat_l; [exact LN|exact Z2].
    - nra. }
  rewrite Rltb_false by lra.
  destruct (Req_dec x (-1)) as [->|N1].
  { rewrite Reqb_true by reflexivity. eexists; split; [reflexivity|]. rewrite Li3_m1.
    replace (litR (-75) (-2)) with (- (3 / 4)) by (rewrite litR_dec; p10 2%nat; lra).
    replace (Rabs (-1)) with 1 by (rewrite Rabs_left; lra). rewrite Rmin_left, Rmax_left, ln_1 by lra.
    apply Rabs_le_between in Z3'. apply Rabs_le. lra. }
  rewrite Reqb_false by exact N1.
  destruct (Rlt_le_dec x 0) as [L0|L0].
  { rewrite Rltb_true by exact L0. destruct (li3_neg_accuracy eps_d x ltac:(lra)) as (w & E & W).
    exists w. split; [exact E|]. rewrite (Rabs_left x) by lra. rewrite Rmin_right, Rmax_left, ln_1 by lra. lra. }
  rewrite Rltb_false by lra.
  destruct (Req_dec x 0) as [->|N0].
  { rewrite Reqb_true by reflexivity. eexists; split; [reflexivity|]. rewrite ReLi_0 by lia. rewrite Rminus_0_r, Rabs_R0, Rmin_right, Rmax_left, ln_1 by lra. lra. }
  rewrite Reqb_false by exact N0.
  destruct (Rlt_le_dec x (/ 2)) as [L1|L1].
  { rewrite Rltb_true by exact L1. destruct (li3_pos_accuracy eps_d x ltac:(lra)) as (w & E & W).
    exists w. split; [exact E|]. rewrite (Rabs_pos_eq x) by lra. rewrite Rmin_right, Rmax_left, ln_1 by lra. lra. }
  rewrite Rltb_false by lra.
  destruct (Req_dec x (/ 2)) as [->|N2].
  { rewrite Reqb_true by reflexivity. eexists; split; [reflexivity|]. rewrite (Rabs_pos_eq (/ 2)) by lra. rewrite Rmin_right, Rmax_left, ln_1 by lra.
    apply Rabs_le_between in H3. apply Rabs_le. lra. }
  rewrite Reqb_false by exact N2.
  assert (PX : 0 < / x) by (apply Rinv_0_lt_compat; lra). assert (I : x * / x = 1) by (field; lra).
  destruct (Rlt_le_dec x 1) as [L2|L2].
  { rewrite Rltb_true by exact L2. rewrite odiv_some, olog_some, olog1p_some by lra. cbn [lift1 lift2].
    assert (Y : -1 <= 1 - 1 / x <= 0) by (unfold Rdiv; nra).
    destruct (li3_neg_accuracy eps_d _ Y) as (w & -> & W). destruct (li3_pos_accuracy eps_d (1 - x) ltac:(lra)) as (u & -> & U). cbn [lift1 lift2].
    eexists. split; [reflexivity|].
    pose proof (Li3_three x ltac:(lra)) as T. rewrite (Rabs_pos_eq (1 - x)) in T by lra. replace (1 - / x) with (1 - 1 / x) in T by (unfold Rdiv; ring).
    rewrite (Rabs_pos_eq x) by lra. rewrite Rmin_right, Rmax_left, ln_1, Rmult_0_r, Rplus_0_r by lra.
    pose proof (lnb x ltac:(lra)) as LB. set (l := ln x) in *. replace (1 + - x) with (1 - x) by ring. set (l1 := ln (1 - x)) in *. cbn [pow] in T.
    replace (- w - u + z3 + l * (z2 + l * (- / 2 * l1 + 1 / 6 * l)) - ReLi 3 x)
      with (- (w - ReLi 3 (1 - 1 / x)) + (- (u - ReLi 3 (1 - x)) + ((z3 - ReLi 3 1) + l * (z2 - ReLi 2 1)))) by nra.
    assert (LL : Rabs (l * (z2 - ReLi 2 1)) <= 7 / 10 * (37 / 10 ^ 18)) by (rewrite Rabs_mult; apply Rmult_le_compat; auto using Rabs_pos).
    eapply Rle_trans; [apply Rabs_comb; [rewrite Rabs_Ropp; exact W|apply Rabs_comb; [rewrite Rabs_Ropp; exact U|apply Rabs_comb; [exact Z3'|exact LL]]]|]. unfold Rdiv in *. lra. }
  rewrite Rltb_false by lra.
  destruct (Req_dec x 1) as [->|N3].
  { rewrite Reqb_true by reflexivity. eexists; split; [reflexivity|]. rewrite Rabs_R1, Rmin_left, Rmax_left, ln_1 by lra. lra. }
  rewrite Reqb_false by exact N3. rewrite (Rabs_pos_eq x) by lra. rewrite Rmin_left, Rmax_right by lra.
  assert (LN : 0 <= ln x) by (rewrite <- ln_1; left; apply ln_increasing; lra).
  destruct (Rlt_le_dec x 2) as [L3|L3].
  { rewrite Rltb_true by exact L3. rewrite odiv_some, !olog_some by lra. cbn [lift1 lift2].
    assert (Y : 0 < 1 - 1 / x <= / 2) by (unfold Rdiv; nra).
    destruct (li3_pos_accuracy eps_d _ Y) as (w & -> & W). destruct (li3_neg_accuracy eps_d (1 - x) ltac:(lra)) as (u & -> & U). cbn [lift1 lift2].
    eexists. split; [reflexivity|].
    pose proof (Li3_three x ltac:(lra)) as T. rewrite (Rabs_left (1 - x)) in T by lra. replace (1 - / x) with (1 - 1 / x) in T by (unfold Rdiv; ring).
    replace (- (1 - x)) with (x - 1) in T by ring. set (l := ln x) in *. set (l1 := ln (x - 1)) in *. cbn [pow] in T.
    replace (- u - w + z3 + l * (z2 + l * (- / 2 * l1 + 1 / 6 * l)) - ReLi 3 x)
      with (- (w - ReLi 3 (1 - 1 / x)) + (- (u - ReLi 3 (1 - x)) + ((z3 - ReLi 3 1) + l * (z2 - ReLi 2 1)))) by nra.
    assert (LL : Rabs (l * (z2 - ReLi 2 1)) <= l * (37 / 10 ^ 18)) by (rewrite Rabs_mult, (Rabs_pos_eq l) by exact LN; apply Rmult_le_compat_l; auto).
    eapply Rle_trans; [apply Rabs_comb; [rewrite Rabs_Ropp; exact W|apply Rabs_comb; [rewrite Rabs_Ropp; exact U|apply Rabs_comb; [exact Z3'|exact LL]]]|]. unfold Rdiv in *. lra. }
  rewrite Rltb_false by lra. rewrite odiv_some, olog_some by lra. cbn [lift1 lift2].
  assert (Y : 0 < 1 / x <= / 2) by (unfold Rdiv; rewrite Rmult_1_l; split; [lra|apply Rinv_le_contravar; lra]).
  destruct (li3_pos_accuracy eps_d _ Y) as (w & -> & W). cbn [lift2]. eexists. split; [reflexivity|].
  pose proof (Li3_inversion 1 x (or_introl eq_refl) ltac:(lra)) as IV. rewrite (Rabs_pos_eq x) in IV by lra. cbn [pow] in IV.
  replace (/ x) with (1 / x) in IV by (unfold Rdiv; ring). set (l := ln x) in *.
  replace (w + l * (2 * z2 - 1 / 6 * l * l) - ReLi 3 x) with ((w - ReLi 3 (1 / x)) + l * (2 * (z2 - ReLi 2 1))) by nra.
  assert (LL : Rabs (l * (2 * (z2 - ReLi 2 1))) <= l * (74 / 10 ^ 18)).
  { rewrite Rabs_mult, (Rabs_pos_eq l) by exact LN. apply Rmult_le_compat_l; auto. rewrite Rabs_mult, Rabs_pos_eq by lra. lra. }
  eapply Rle_trans; [apply Rabs_comb; [exact W|exact LL]|]. unfold Rdiv in *. lra.
Qed.
