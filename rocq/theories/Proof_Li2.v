(** * Accuracy of the real dilogarithms, in exact arithmetic *)
From Coq Require Import ZArith Reals List Bool Lra Lia Psatz.
From Coquelicot Require Import Coquelicot.
From Verif Require Import Num NumR Eval_R Cheb Polylog Polylog_series Polylog_eqs Fourier Poly_check Cheb_big Consts Model_LiR.
Import ListNotations.
Local Open Scope R_scope.

(** the five functions differ only in the constant PI and the core approximant *)
Section Shape.
Variable N : num.
Local Notation "x + y" := (add N x y).
Local Notation "x - y" := (sub N x y).
Local Notation "x * y" := (mul N x y).
Local Notation "x / y" := (div N x y).
Definition Li2_shape (PI : N) (k1 : N -> N -> N -> N) (x : N) : N :=
  if ltb N x (lit N (-1) 0) then
    let l := nlog N ((lit N 1 0) - x) in
    k1 ((lit N 1 0) / ((lit N 1 0) - x)) ((opp N PI) * PI / (lit N 6 0) + l * ((lit N 5 (-1)) * l - (nlog N (opp N x)))) (lit N 1 0)
  else if eqb N x (lit N (-1) 0) then
    (opp N PI) * PI / (lit N 12 0)
  else if ltb N x (lit N 0 0) then
    let l := nlog1p N (opp N x) in
    k1 (x / (x - (lit N 1 0))) ((lit N (-5) (-1)) * l * l) (lit N (-1) 0)
  else if eqb N x (lit N 0 0) then x
  else if ltb N x (lit N 5 (-1)) then k1 x (lit N 0 0) (lit N 1 0)
  else if ltb N x (lit N 1 0) then
    k1 ((lit N 1 0) - x) (PI * PI / (lit N 6 0) - (nlog N x) * (nlog1p N (opp N x))) (lit N (-1) 0)
  else if eqb N x (lit N 1 0) then PI * PI / (lit N 6 0)
  else
    let '(y, r, s) :=
      if ltb N x (lit N 2 0) then
        let l := nlog N x in
        let y := (lit N 1 0) - (lit N 1 0) / x in
        (y, PI * PI / (lit N 6 0) - l * ((nlog N y) + (lit N 5 (-1)) * l), lit N 1 0)
      else
        let l := nlog N x in
        ((lit N 1 0) / x, PI * PI / (lit N 3 0) - (lit N 5 (-1)) * l * l, lit N (-1) 0) in
    k1 y r s.
Definition k1_f (y r s : N) : N :=
  let y2 := y * y in
  let p := (aref N (Li2_f_P N) 0%nat) + y * (aref N (Li2_f_P N) 1%nat) + y2 * (aref N (Li2_f_P N) 2%nat) in
  let q := (aref N (Li2_f_Q N) 0%nat) + y * (aref N (Li2_f_Q N) 1%nat) + y2 * (aref N (Li2_f_Q N) 2%nat) in
  r + s * y * p / q.
Definition k1_d (y r s : N) : N :=
  let y2 := y * y in
  let y4 := y2 * y2 in
  let p := (aref N (Li2_d_P N) 0%nat) + y * (aref N (Li2_d_P N) 1%nat) + y2 * ((aref N (Li2_d_P N) 2%nat) + y * (aref N (Li2_d_P N) 3%nat)) + y4 * ((aref N (Li2_d_P N) 4%nat) + y * (aref N (Li2_d_P N) 5%nat)) in
  let q := (aref N (Li2_d_Q N) 0%nat) + y * (aref N (Li2_d_Q N) 1%nat) + y2 * ((aref N (Li2_d_Q N) 2%nat) + y * (aref N (Li2_d_Q N) 3%nat)) + y4 * ((aref N (Li2_d_Q N) 4%nat) + y * (aref N (Li2_d_Q N) 5%nat) + y2 * (aref N (Li2_d_Q N) 6%nat)) in
  r + s * y * p / q.
Definition k1_h (P Q : list N) (y r s : N) : N :=
  let z := y - (lit N 25 (-2)) in r + s * y * horner N z P / horner N z Q.
Lemma Li2_f_shape x : Li2_f N x = Li2_shape (lit N 314159265 (-8)) k1_f x.
Proof. reflexivity. Qed.
Lemma Li2_d_shape x : Li2_d N x = Li2_shape (lit N 31415926535897932 (-16)) k1_d x.
Proof. reflexivity. Qed.
Lemma Li2_l_shape x : Li2_l N x = Li2_shape (lit N 314159265358979323846264338327950288 (-35)) (k1_h (Li2_l_P N) (Li2_l_Q N)) x.
Proof. reflexivity. Qed.
Lemma Li2_q_shape x : Li2_q N x = Li2_shape (lit N 314159265358979323846264338327950288 (-35)) (k1_h (Li2_q_P N) (Li2_q_Q N)) x.
Proof. reflexivity. Qed.
End Shape.

(** the argument transformations are exact: with the core replaced by the
    function itself only the value of PI remains as an error *)
Definition core_ok (k1 : option R -> option R -> option R -> option R) (g : R -> R) : Prop :=
  forall y r s, 0 < y <= / 2 -> k1 (Some y) (Some r) (Some s) = Some (r + s * g y).

Lemma shape_eval ep p k1 g x : core_ok k1 g ->
  exists v c y s, Li2_shape (NumR ep) (Some p) k1 (Some x) = Some v /\ 
    0 <= y <= / 2 /\ (s = 1 \/ s = -1) /\ Rabs c <= / 3 /\ (x < / 2 -> y <= Rabs x) /\ (-1 < x < / 2 -> c = 0) /\
    (/2 <= x < 1 -> Rabs c <= / 6) /\
    ((y = 0 /\ v - ReLi 2 x = c * (p * p - PI * PI)) \/ (0 < y /\ v - ReLi 2 x = c * (p * p - PI * PI) + s * (g y - ReLi 2 y))).
Proof.
  intros K. pose proof basel as BAS. cbn [pow] in BAS. rewrite Rmult_1_r in BAS.
  unfold Li2_shape. cbn [NumR lit car ltb eqb sub add mul div opp nlog nlog1p ocmp lift1 lift2].
  rewrite !litR_int, litR_half, litR_mhalf.
  destruct (Rlt_le_dec x (-1)) as [L|L].
  { (* x < -1 *)
    rewrite Rltb_true by exact L. rewrite (odiv_some 1), (odiv_some _ 6), !olog_some by lra. cbn [lift1 lift2].
    assert (Y : 0 < / (1 - x) <= / 2) by (split; [apply Rinv_0_lt_compat; lra|apply Rinv_le_contravar; lra]).
    rewrite K by (unfold Rdiv; rewrite Rmult_1_l; exact Y).
    exists (- p * p / 6 + ln (1 - x) * (/ 2 * ln (1 - x) - ln (- x)) + 1 * g (1 / (1 - x))), (- / 6), (/ (1 - x)), 1.
    split; [reflexivity|]. split; [lra|]. split; [left; reflexivity|]. split; [rewrite Rabs_Ropp, Rabs_pos_eq; lra|].
    split; [intros _; rewrite Rabs_left by lra; lra|]. split; [lra|]. split; [lra|]. right. split; [lra|].
    replace (1 / (1 - x)) with (/ (1 - x)) by (unfold Rdiv; ring). set (y := / (1 - x)) in *.
    pose proof (Li2_landen (1 - x) ltac:(lra)) as LD. replace (1 - (1 - x)) with x in LD by ring. fold y in LD.
    pose proof (Li2_reflection y) as RF. rewrite !Rabs_pos_eq in RF by lra.
    assert (EY : ln y = - ln (1 - x)) by (unfold y; apply ln_Rinv; lra).
    assert (E1 : ln (1 - y) = ln (- x) - ln (1 - x)). { replace (1 - y) with ((- x) * y) by (unfold y; field; lra). rewrite ln_mult by lra. lra. }
    rewrite EY, E1, BAS in RF. nra. }
  rewrite Rltb_false by lra.
  destruct (Req_dec x (-1)) as [->|N1].
  { rewrite Reqb_true by reflexivity. rewrite odiv_some by lra.
    exists (- p * p / 12), (- / 12), 0, 1. split; [reflexivity|]. split; [lra|]. split; [left; reflexivity|].
    split; [rewrite Rabs_Ropp, Rabs_pos_eq; lra|]. split; [intros _; apply Rabs_pos|]. split; [lra|]. split; [lra|]. left. split; [reflexivity|].
    rewrite Li2_m1, BAS. field. }
  rewrite Reqb_false by exact N1.
  destruct (Rlt_le_dec x 0) as [L0|L0].
  { rewrite Rltb_true by exact L0. rewrite odiv_some, olog1p_some by lra. cbn [lift1 lift2].
    assert (Q : x / (x - 1) = (- x) * / (1 - x)) by (field; lra).
    assert (P : 0 < / (1 - x)) by (apply Rinv_0_lt_compat; lra).
    assert (I : (1 - x) * / (1 - x) = 1) by (field; lra).
    assert (Y : 0 < x / (x - 1) <= / 2). { rewrite Q. split; nra. }
    rewrite K by exact Y. eexists; exists 0, (x / (x - 1)), (-1).
    split; [reflexivity|]. split; [lra|]. split; [right; reflexivity|]. split; [rewrite Rabs_R0; lra|].
    split; [intros _; rewrite Rabs_left by lra; rewrite Q; nra|]. split; [reflexivity|]. split; [lra|]. right. split; [lra|].
    pose proof (Li2_landen (1 - x) ltac:(lra)) as LD. replace (1 - (1 - x)) with x in LD by ring.
    replace (1 - / (1 - x)) with (x / (x - 1)) in LD by (field; lra). replace (1 + - x) with (1 - x) by ring. lra. }
  rewrite Rltb_false by lra.
  destruct (Req_dec x 0) as [->|N0].
  { rewrite Reqb_true by reflexivity. exists 0, 0, 0, 1. split; [reflexivity|]. split; [lra|]. split; [left; reflexivity|].
    split; [rewrite Rabs_R0; lra|]. split; [intros _; apply Rabs_pos|]. split; [reflexivity|]. split; [lra|]. left. split; [reflexivity|]. rewrite ReLi_0 by lia. ring. }
  rewrite Reqb_false by exact N0.
  destruct (Rlt_le_dec x (/ 2)) as [L1|L1].
  { rewrite Rltb_true by exact L1. rewrite K by lra. eexists; exists 0, x, 1. split; [reflexivity|]. split; [lra|]. split; [left; reflexivity|].
    split; [rewrite Rabs_R0; lra|]. split; [intros _; apply Rle_abs|]. split; [reflexivity|]. split; [lra|]. right. split; [lra|]. ring. }
  rewrite Rltb_false by lra.
  destruct (Rlt_le_dec x 1) as [L2|L2].
  { rewrite Rltb_true by exact L2. rewrite odiv_some, olog_some, olog1p_some by lra. cbn [lift1 lift2]. rewrite K by lra.
    eexists; exists (/ 6), (1 - x), (-1). split; [reflexivity|]. split; [lra|]. split; [right; reflexivity|].
    split; [rewrite Rabs_pos_eq; lra|]. split; [lra|]. split; [lra|]. split; [intros _; rewrite Rabs_pos_eq; lra|]. right. split; [lra|].
    pose proof (Li2_reflection x) as RF. rewrite !Rabs_pos_eq in RF by lra. replace (1 + - x) with (1 - x) by ring. lra. }
  rewrite Rltb_false by lra.
  destruct (Req_dec x 1) as [->|N2].
  { rewrite Reqb_true by reflexivity. rewrite odiv_some by lra. exists (p * p / 6), (/ 6), 0, 1. split; [reflexivity|]. split; [lra|]. split; [left; reflexivity|].
    split; [rewrite Rabs_pos_eq; lra|]. split; [lra|]. split; [lra|]. split; [lra|]. left. split; [reflexivity|]. rewrite BAS. field. }
  rewrite Reqb_false by exact N2.
  assert (X1 : 1 < x) by lra. assert (P : 0 < / x) by (apply Rinv_0_lt_compat; lra). assert (I : x * / x = 1) by (field; lra).
  destruct (Rlt_le_dec x 2) as [L3|L3].
  { rewrite Rltb_true by exact L3. rewrite !odiv_some by lra. cbn [lift1 lift2]. 
    assert (Y : 0 < 1 - 1 / x <= / 2). { unfold Rdiv. rewrite Rmult_1_l. split; nra. }
    rewrite !olog_some by lra. cbn [lift1 lift2]. rewrite K by exact Y.
    eexists; exists (/ 6), (1 - 1 / x), 1. split; [reflexivity|]. split; [lra|]. split; [left; reflexivity|].
    split; [rewrite Rabs_pos_eq; lra|]. split; [lra|]. split; [lra|]. split; [lra|]. right. split; [lra|].
    pose proof (Li2_reflection x) as RF. rewrite (Rabs_pos_eq x), (Rabs_left (1 - x)) in RF by lra.
    pose proof (Li2_landen x ltac:(lra)) as LD. replace (1 - / x) with (1 - 1 / x) in LD by (unfold Rdiv; ring).
    assert (E1 : ln (- (1 - x)) = ln (1 - 1 / x) + ln x). { rewrite <- ln_mult by lra. f_equal. field. lra. }
    rewrite E1 in RF. nra. }
  rewrite Rltb_false by lra. rewrite !odiv_some by lra. rewrite olog_some by lra. cbn [lift1 lift2].
  assert (Y : 0 < 1 / x <= / 2). { unfold Rdiv. rewrite Rmult_1_l. split; [lra|]. apply Rinv_le_contravar; lra. }
  rewrite K by exact Y. eexists; exists (/ 3), (1 / x), (-1). split; [reflexivity|]. split; [lra|]. split; [right; reflexivity|].
  split; [rewrite Rabs_pos_eq; lra|]. split; [lra|]. split; [lra|]. split; [lra|]. right. split; [lra|].
  pose proof (Li2_inversion 1 x (or_introl eq_refl) ltac:(lra)) as IV. rewrite Rabs_pos_eq in IV by lra.
  replace (/ x) with (1 / x) in IV by (unfold Rdiv; ring). cbn [pow] in IV. rewrite Rmult_1_r in IV. lra.
Qed.

(** ** the cores *)
Definition Pf := Li2_f_P NumLit. Definition Qf := Li2_f_Q NumLit.
Definition Pd := Li2_d_P NumLit. Definition Qd := Li2_d_Q NumLit.
Definition Pl := Li2_l_P NumLit. Definition Ql := Li2_l_Q NumLit.
Definition Pq := Li2_q_P NumLit. Definition Qq := Li2_q_Q NumLit.

Lemma core_f : (forall y, 0 < y <= / 2 -> plit Qf y <> 0) -> core_ok (k1_f RF) (fun y => y * (plit Pf y / plit Qf y)).
Proof.
  intros H y r s Hy. specialize (H y Hy). unfold k1_f, RF.
  cbn [NumR add mul div car aref Li2_f_P Li2_f_Q nth lit lift2].
  cbn [Pf Qf Li2_f_P Li2_f_Q plit lit NumLit] in *. unfold litp in *. cbn [fst snd] in *.
  rewrite odiv_some.
  - cbn [lift2]. f_equal. field. intros E. apply H. etransitivity; [|exact E]. ring.
  - intros E. apply H. etransitivity; [|exact E]. ring.
Qed.
Lemma core_d : (forall y, 0 < y <= / 2 -> plit Qd y <> 0) -> core_ok (k1_d RD) (fun y => y * (plit Pd y / plit Qd y)).
Proof.
  intros H y r s Hy. specialize (H y Hy). unfold k1_d, RD.
  cbn [NumR add mul div car aref Li2_d_P Li2_d_Q nth lit lift2].
  cbn [Pd Qd Li2_d_P Li2_d_Q plit lit NumLit] in *. unfold litp in *. cbn [fst snd] in *.
  rewrite odiv_some.
  - cbn [lift2]. f_equal. unfold Rdiv. rewrite Rmult_assoc. f_equal. rewrite !Rmult_assoc. f_equal. f_equal. f_equal; [ring|]. f_equal. ring.
  - intros E. apply H. etransitivity; [|exact E]. ring.
Qed.
Lemma core_l : (forall y, 0 < y <= / 2 -> plit Ql (y - /4) <> 0) -> core_ok (k1_h RL (Li2_l_P RL) (Li2_l_Q RL)) (fun y => y * (plit Pl (y - /4) / plit Ql (y - / 4))).
Proof.
  intros H y r s Hy. specialize (H y Hy). unfold k1_h.
  change (Li2_l_P RL) with (map (fun p => Some (litp p)) Pl). change (Li2_l_Q RL) with (map (fun p => Some (litp p)) Ql).
  cbn [RL NumR sub lit lift2]. replace (litR 25 (-2)) with (/ 4) by (rewrite litR_dec; change (/4 = 25 / 100); lra).
  unfold RL. rewrite !horner_lit by discriminate. cbn [NumR add mul div lift2]. rewrite odiv_some by exact H. cbn [lift2]. f_equal. unfold Rdiv. ring.
Qed.
Lemma core_q : (forall y, 0 < y <= / 2 -> plit Qq (y - /4) <> 0) -> core_ok (k1_h RQ (Li2_q_P RQ) (Li2_q_Q RQ)) (fun y => y * (plit Pq (y - /4) / plit Qq (y - / 4))).
Proof.
  intros H y r s Hy. specialize (H y Hy). unfold k1_h.
  change (Li2_q_P RQ) with (map (fun p => Some (litp p)) Pq). change (Li2_q_Q RQ) with (map (fun p => Some (litp p)) Qq).
  cbn [RQ NumR sub lit lift2]. replace (litR 25 (-2)) with (/ 4) by (rewrite litR_dec; change (/4 = 25 / 100); lra).
  unfold RQ. rewrite !horner_lit by discriminate. cbn [NumR add mul div lift2]. rewrite odiv_some by exact H. cbn [lift2]. f_equal. unfold Rdiv. ring.
Qed.

(** from the core to the whole function *)
Lemma shape_accuracy ep p k1 g x e d C : core_ok k1 g ->
  (forall y, 0 < y <= / 2 -> Rabs (g y - ReLi 2 y) <= e * y) -> Rabs (p * p - PI * PI) <= d -> 0 <= e ->
  e <= C -> e / 2 + d / 3 <= C -> e / 2 + d / 6 <= C / 2 ->
  exists v, Li2_shape (NumR ep) (Some p) k1 (Some x) = Some v /\ Rabs (v - ReLi 2 x) <= C * Rmin 1 (Rabs x).
Proof.
  intros K G D He C1 C2 C3. destruct (shape_eval ep p k1 g x K) as (v & c & y & s & E & Hy & Hs & Hc & Hyx & Hc0 & Hc6 & HV).
  exists v. split; [exact E|].
  assert (B : Rabs (v - ReLi 2 x) <= Rabs c * d + e * y).
  { assert (CD : Rabs (c * (p * p - PI * PI)) <= Rabs c * d) by (rewrite Rabs_mult; apply Rmult_le_compat_l; [apply Rabs_pos|exact D]).
    destruct HV as [[Y0 ->]|[Y0 ->]]; [nra|]. eapply Rle_trans; [apply Rabs_triang|]. apply Rplus_le_compat; [exact CD|].
    rewrite Rabs_mult. replace (Rabs s) with 1 by (destruct Hs as [->| ->]; [rewrite Rabs_R1|rewrite Rabs_left by lra]; lra).
    rewrite Rmult_1_l. apply G. lra. }
  assert (D0 : 0 <= d) by (eapply Rle_trans; [apply Rabs_pos|exact D]). pose proof (Rabs_pos c) as c0.
  eapply Rle_trans; [exact B|].
  destruct (Rlt_le_dec x (/2)) as [L|L].
  - specialize (Hyx L). destruct (Rlt_le_dec (-1) x) as [M|M].
    + rewrite (Hc0 (conj M L)), Rabs_R0, Rmult_0_l, Rplus_0_l.
      assert (Rabs x <= 1) by (apply Rabs_le; lra). rewrite Rmin_right by assumption. nra.
    + rewrite Rmin_left by (rewrite Rabs_left; lra). nra.
  - rewrite (Rabs_pos_eq x) by lra. destruct (Rlt_le_dec x 1) as [M|M].
    + specialize (Hc6 (conj L M)). rewrite Rmin_right by lra. nra.
    + rewrite Rmin_left by lra. nra.
Qed.

(** ** error of the cores *)
Lemma half_iv y : 0 < y <= / 2 -> IZR 0 / IZR 1 <= y <= IZR 1 / IZR 2.
Proof. lra. Qed.
Lemma refH_bound n y : (1 <= n)%nat -> 0 < y <= / 2 -> Rabs (y * (pz (rf_poly refH n) y / IZR (rf_den refH n)) - ReLi n y) <= / 10 ^ 22 * y.
Proof.
  intros Hn Hy. pose proof (ref_bound _ _ _ _ _ _ _ _ refH_ok n y Hn ltac:(lra)) as H. rewrite (Rabs_pos_eq y) in H by lra.
  p10 22%nat in H. unfold Rdiv in H. rewrite Rmult_1_l in H. exact H.
Qed.
Lemma refH2_bound n y : (1 <= n)%nat -> 0 < y <= / 2 -> Rabs (y * (pz (rf_poly refH2 n) y / IZR (rf_den refH2 n)) - ReLi n y) <= / 10 ^ 39 * y.
Proof.
  intros Hn Hy. pose proof (ref_bound _ _ _ _ _ _ _ _ refH2_ok n y Hn ltac:(lra)) as H. rewrite (Rabs_pos_eq y) in H by lra.
  p10 39%nat in H. unfold Rdiv in H. rewrite Rmult_1_l in H. exact H.
Qed.
Lemma core_err n y a w r e1 e2 : 0 < y -> Rabs (a - w) <= e1 -> Rabs (y * w - r) <= e2 * y -> r = ReLi n y -> Rabs (y * a - ReLi n y) <= (e1 + e2) * y.
Proof.
  intros Hy H1 H2 <-. replace (y * a - r) with (y * (a - w) + (y * w - r)) by ring. eapply Rle_trans; [apply Rabs_triang|].
  rewrite Rabs_mult, (Rabs_pos_eq y) by lra. nra.
Qed.
Lemma scale_ratio P Q K y : scale_ok K P = true -> scale_ok K Q = true -> pz (zs_of K Q) y <> 0 ->
  plit Q y <> 0 /\ plit P y / plit Q y = pz (zs_of K P) y / pz (zs_of K Q) y.
Proof.
  intros HP HQ H. rewrite (plit_pz K P), (plit_pz K Q) by assumption.
  assert (0 <= K)%Z by (unfold scale_ok in HP; rewrite andb_true_iff, Z.leb_le in HP; tauto).
  assert (IZR (10 ^ K) <> 0) by (apply IZR_neq, Z.pow_nonzero; lia).
  split; [|field; auto]. intros E. apply Rmult_integral in E. destruct E as [E|E]; [auto|]. apply Rinv_neq_0_compat in E; auto.
Qed.

Lemma check_f : ratio_list 0 1 1 2 (split_iv 32 0 1 2 32) (zs_of 11 Pf) (zs_of 11 Qf) (rf_poly refH 2) (rf_den refH 2) 299 (10 ^ 9) = true.
Proof. vm_compute. reflexivity. Qed.
Lemma check_d : ratio_list 0 1 1 2 (split_iv 32 0 1 2 32) (zs_of 23 Pd) (zs_of 23 Qd) (rf_poly refH 2) (rf_den refH 2) 100 (10 ^ 18) = true.
Proof. vm_compute. reflexivity. Qed.
Lemma f_ok y : 0 < y <= / 2 -> plit Qf y <> 0 /\ Rabs (y * (plit Pf y / plit Qf y) - ReLi 2 y) <= 3 / 10 ^ 7 * y.
Proof.
  intros Hy. destruct (ratio_list_ok _ _ _ _ _ _ _ _ _ _ _ check_f y (half_iv y Hy)) as [Q0 U].
  destruct (scale_ratio Pf Qf 11 y eq_refl eq_refl ltac:(lra)) as [N E]. split; [exact N|]. rewrite E.
  eapply Rle_trans; [apply (core_err 2 y _ _ _ _ _ ltac:(lra) U (refH_bound 2 y ltac:(lia) Hy) eq_refl)|].
  apply Rmult_le_compat_r; [lra|]. p10 9%nat. lra.
Qed.
Lemma d_ok y : 0 < y <= / 2 -> plit Qd y <> 0 /\ Rabs (y * (plit Pd y / plit Qd y) - ReLi 2 y) <= 101 / 10 ^ 18 * y.
Proof.
  intros Hy. destruct (ratio_list_ok _ _ _ _ _ _ _ _ _ _ _ check_d y (half_iv y Hy)) as [Q0 U].
  destruct (scale_ratio Pd Qd 23 y eq_refl eq_refl ltac:(lra)) as [N E]. split; [exact N|]. rewrite E.
  eapply Rle_trans; [apply (core_err 2 y _ _ _ _ _ ltac:(lra) U (refH_bound 2 y ltac:(lia) Hy) eq_refl)|].
  apply Rmult_le_compat_r; [lra|]. p10 18%nat. lra.
Qed.
(** the long double cores are polynomials in y - 1/4 *)
Definition shift (K : Z) (l : list (Z * Z)) := fst (acomp (zs_of K l) (-1) 4 4).
Definition shift_s (K : Z) (l : list (Z * Z)) := snd (acomp (zs_of K l) (-1) 4 4).
Lemma shift_ratio P Q K y : scale_ok K P = true -> scale_ok K Q = true -> shift_s K P = shift_s K Q -> pz (shift K Q) y <> 0 ->
  plit Q (y - / 4) <> 0 /\ plit P (y - / 4) / plit Q (y - / 4) = pz (shift K P) y / pz (shift K Q) y.
Proof.
  intros HP HQ HS H. unfold shift, shift_s in *.
  destruct (acomp_ok (zs_of K P) (-1) 4 4 y ltac:(lia)) as [SP EP]. destruct (acomp_ok (zs_of K Q) (-1) 4 4 y ltac:(lia)) as [SQ EQ].
  rewrite <- HS in *. rewrite EP, EQ in *. replace ((IZR (-1) + IZR 4 * y) / IZR 4) with (y - / 4) in * by field.
  assert (S0 : IZR (snd (acomp (zs_of K P) (-1) 4 4)) <> 0) by (apply IZR_neq; lia).
  assert (H' : pz (zs_of K Q) (y - / 4) <> 0) by (intros E0; apply H; rewrite E0; ring).
  destruct (scale_ratio P Q K (y - / 4) HP HQ H') as [N E]. split; [exact N|]. rewrite E. field. auto.
Qed.
Lemma check_l : ratio_list 0 1 1 2 (split_iv 8 0 1 2 8) (shift 40 Pl) (shift 40 Ql) (rf_poly refH2 2) (rf_den refH2 2) 22 (10 ^ 21) = true.
Proof. vm_compute. reflexivity. Qed.
Lemma check_q : ratio_list 0 1 1 2 (split_iv 8 0 1 2 8) (shift 45 Pq) (shift 45 Qq) (rf_poly refH2 2) (rf_den refH2 2) 49 (10 ^ 37) = true.
Proof. vm_compute. reflexivity. Qed.
Lemma l_ok y : 0 < y <= / 2 -> plit Ql (y - / 4) <> 0 /\ Rabs (y * (plit Pl (y - / 4) / plit Ql (y - / 4)) - ReLi 2 y) <= 221 / 10 ^ 22 * y.
Proof.
  intros Hy. destruct (ratio_list_ok _ _ _ _ _ _ _ _ _ _ _ check_l y (half_iv y Hy)) as [Q0 U].
  destruct (shift_ratio Pl Ql 40 y eq_refl eq_refl ltac:(vm_compute; reflexivity) ltac:(lra)) as [N E]. split; [exact N|]. rewrite E.
  eapply Rle_trans; [apply (core_err 2 y _ _ _ _ _ ltac:(lra) U (refH2_bound 2 y ltac:(lia) Hy) eq_refl)|].
  apply Rmult_le_compat_r; [lra|]. p10 21%nat. lra.
Qed.
Lemma q_ok y : 0 < y <= / 2 -> plit Qq (y - / 4) <> 0 /\ Rabs (y * (plit Pq (y - / 4) / plit Qq (y - / 4)) - ReLi 2 y) <= 491 / 10 ^ 38 * y.
Proof.
  intros Hy. destruct (ratio_list_ok _ _ _ _ _ _ _ _ _ _ _ check_q y (half_iv y Hy)) as [Q0 U].
  destruct (shift_ratio Pq Qq 45 y eq_refl eq_refl ltac:(vm_compute; reflexivity) ltac:(lra)) as [N E]. split; [exact N|]. rewrite E.
  eapply Rle_trans; [apply (core_err 2 y _ _ _ _ _ ltac:(lra) U (refH2_bound 2 y ltac:(lia) Hy) eq_refl)|].
  apply Rmult_le_compat_r; [lra|]. p10 37%nat. lra.
Qed.

(** ** the theorems *)
Lemma sq_diff p d : Rabs (p - PI) <= d -> d <= / 100 -> Rabs (p * p - PI * PI) <= d * (63 / 10).
Proof.
  intros H Hd. replace (p * p - PI * PI) with ((p - PI) * (p + PI)) by ring. rewrite Rabs_mult.
  pose proof PI_dec20 as P. apply Rabs_le_between in H as H'.
  assert (Rabs (p + PI) <= 63 / 10) by (apply Rabs_le; lra).
  apply Rmult_le_compat; try apply Rabs_pos; assumption.
Qed.
Lemma PI_lit m k d : Rabs (IZR m / IZR (10 ^ Z.pos k) - 314159265358979323846264338327950288419716939937510 / 10 ^ 50) <= d ->
  Rabs (litR m (Z.neg k) - PI) <= d + / 10 ^ 48.
Proof.
  intros H. rewrite litR_dec. pose proof PI_dec as P. apply Rabs_le_between in P, H. apply Rabs_le. lra.
Qed.
Theorem Li2_d_accuracy x : exists v, Li2_d RD (Some x) = Some v /\ Rabs (v - ReLi 2 x) <= 2 / 10 ^ 16 * Rmin 1 (Rabs x).
Proof.
  rewrite Li2_d_shape. apply (shape_accuracy eps_d _ _ _ x (101 / 10 ^ 18) (39 / 10 ^ 18 * (63 / 10)) _ (core_d (fun y H => proj1 (d_ok y H))) (fun y H => proj2 (d_ok y H))); try lra.
  apply sq_diff; [|lra]. eapply Rle_trans; [apply PI_lit with (d := 385 / 10 ^ 19)|lra]. p10 16%nat. apply Rabs_le. lra.
Qed.
Theorem Li2_f_accuracy x : exists v, Li2_f RF (Some x) = Some v /\ Rabs (v - ReLi 2 x) <= 31 / 10 ^ 8 * Rmin 1 (Rabs x).
Proof.
  rewrite Li2_f_shape. apply (shape_accuracy eps_f _ _ _ x (3 / 10 ^ 7) (4 / 10 ^ 9 * (63 / 10)) _ (core_f (fun y H => proj1 (f_ok y H))) (fun y H => proj2 (f_ok y H))); try lra.
  apply sq_diff; [|lra]. eapply Rle_trans; [apply PI_lit with (d := 39 / 10 ^ 10)|lra]. p10 8%nat. apply Rabs_le. lra.
Qed.
Theorem Li2_l_accuracy x : exists v, Li2_l RL (Some x) = Some v /\ Rabs (v - ReLi 2 x) <= 23 / 10 ^ 21 * Rmin 1 (Rabs x).
Proof.
  rewrite Li2_l_shape. apply (shape_accuracy eps_l _ _ _ x (221 / 10 ^ 22) (5 / 10 ^ 36 * (63 / 10)) _ (core_l (fun y H => proj1 (l_ok y H))) (fun y H => proj2 (l_ok y H))); try lra.
  apply sq_diff; [|lra]. eapply Rle_trans; [apply PI_lit with (d := 43 / 10 ^ 37)|lra]. p10 35%nat. apply Rabs_le. lra.
Qed.
Theorem Li2_q_accuracy x : exists v, Li2_q RQ (Some x) = Some v /\ Rabs (v - ReLi 2 x) <= 15 / 10 ^ 36 * Rmin 1 (Rabs x).
Proof.
  rewrite Li2_q_shape. apply (shape_accuracy eps_q _ _ _ x (491 / 10 ^ 38) (43 / 10 ^ 37 * (63 / 10)) _ (core_q (fun y H => proj1 (q_ok y H))) (fun y H => proj2 (q_ok y H))); try lra.
  apply sq_diff; [|lra]. eapply Rle_trans; [apply PI_lit with (d := 42 / 10 ^ 37)|lra]. p10 35%nat. apply Rabs_le. lra.
Qed.
