(** * Accuracy of each complex Li3 .. Li6 in exact arithmetic (generated by tools/gen_cli_inst.py) *)
From Coq Require Import ZArith Reals List Bool Lra Lia Psatz.
From Coquelicot Require Import Coquelicot.
From Interval Require Import Tactic.
From Verif Require Import Num NumR Spec Eval_R Consts Cplx Ccalc CLi Cpoly CLi_unity CLi_T CLi_ref Rest Model_LiC CLi_code CLi_eval CLi_dev CLi_rest CLi_acc.
Import ListNotations.
Local Open Scope R_scope.
Lemma rel0 z : rel 0 (zl DD z) z.
Proof. pose proof DDpos as D0. unfold rel, zl. induction z as [|c l IH]; [constructor|]. cbn [map]. constructor; [|exact IH]. rewrite Rminus_eq_0, Rabs_R0. unfold Rdiv. rewrite Rmult_0_l. lra. Qed.
Lemma useT n l c k u : (0 <= k)%Z -> chkD 11 10 l (tl (qz n)) 0 c k = true -> Cmod u <= 11 / 10 -> Cmod (Cminus (cpev (map rq l) u) (cpev (zl DD (tl (qz n))) u)) <= IZR c / 10 ^ Z.to_nat k.
Proof. intros Hk H Hu. apply (chkD_ok 11 10 l _ (tl (qz n)) 0 c k); [lia|lia|lia|exact Hk|apply rel0|exact H|exact Hu]. Qed.
Lemma useU n l c k w : (3 <= n <= 6)%nat -> (0 <= k)%Z -> chkD 1 1 l (igl n) (EZ + Z.of_nat n) c k = true -> Cmod w <= 1 -> Cmod (Cminus (cpev (map rq l) w) (cpev (IG (zl DD bz) n) w)) <= IZR c / 10 ^ Z.to_nat k.
Proof.
  intros Hn Hk H Hw. apply (chkD_ok 1 1 l _ (igl n) (EZ + Z.of_nat n) c k); [apply Z.add_nonneg_nonneg; [discriminate|lia]|lia|lia|exact Hk|rewrite igl_ok by exact Hn; apply igz_rel; lia|exact H|lra].
Qed.
Ltac numB := unfold Bd, Sabs, rlist, rq; cbn [fst snd]; interval with (i_prec 200).
Lemma T_cLi3_d : chkD 11 10 T_cLi3_d_bf (tl (qz 3)) 0 51 16 = true. Proof. vm_compute. reflexivity. Qed.
Lemma U_cLi3_d : chkD 1 1 (T_cLi3_d_hd ++ spread T_cLi3_d_cs) (igl 3) (EZ + Z.of_nat 3) 13 17 = true. Proof. vm_compute. reflexivity. Qed.
Theorem acc_cLi3_d e z : snd z <> 0 -> exists v, cLi3_d (NumR e) (ofC e z) = ofC e v /\ close 3 (11 / 10 ^ 15) v z.
Proof.
  intros H. eexists. split; [apply ev_cLi3_d, H|].
  apply (cval_close 3 _ _ (rq T_cLi3_d_pi) (rq (16449340668482264, 10^16)%Z) 1 (4 / 10 ^ 17) (13 / 10 ^ 17) (51 / 10 ^ 16) (5 / 10 ^ 16)).
  - lia.
  - intros w Hw. exact (useU 3 _ 13 17 w ltac:(lia) ltac:(lia) U_cLi3_d Hw).
  - intros u Hu. exact (useT 3 _ 51 16 u ltac:(lia) T_cLi3_d Hu).
  - unfold rq, T_cLi3_d_pi. cbn [fst snd]. interval with (i_prec 200).
  - lra.
  - unfold T_cLi3_d_pi. numB.
  - cbn [pow]. ring.
  - lra.
  - lra.
  - exact H.
Qed.
Lemma T_cLi4_d : chkD 11 10 T_cLi4_d_bf (tl (qz 4)) 0 37 16 = true. Proof. vm_compute. reflexivity. Qed.
Lemma U_cLi4_d : chkD 1 1 (T_cLi4_d_hd ++ spread T_cLi4_d_cs) (igl 4) (EZ + Z.of_nat 4) 29 18 = true. Proof. vm_compute. reflexivity. Qed.
Theorem acc_cLi4_d e z : snd z <> 0 -> exists v, cLi4_d (NumR e) (ofC e z) = ofC e v /\ close 4 (8 / 10 ^ 15) v z.
Proof.
  intros H. eexists. split; [apply ev_cLi4_d, H|].
  apply (cval_close 4 _ _ (rq T_cLi4_d_pi) (rq (0, 1)%Z) (-1) (4 / 10 ^ 17) (29 / 10 ^ 18) (37 / 10 ^ 16) (5 / 10 ^ 16)).
  - lia.
  - intros w Hw. exact (useU 4 _ 29 18 w ltac:(lia) ltac:(lia) U_cLi4_d Hw).
  - intros u Hu. exact (useT 4 _ 37 16 u ltac:(lia) T_cLi4_d Hu).
  - unfold rq, T_cLi4_d_pi. cbn [fst snd]. interval with (i_prec 200).
  - lra.
  - unfold T_cLi4_d_pi. numB.
  - cbn [pow]. ring.
  - lra.
  - lra.
  - exact H.
Qed.
Lemma T_cLi5_d : chkD 11 10 T_cLi5_d_bf (tl (qz 5)) 0 21 17 = true. Proof. vm_compute. reflexivity. Qed.
Lemma U_cLi5_d : chkD 1 1 (T_cLi5_d_hd ++ spread T_cLi5_d_cs) (igl 5) (EZ + Z.of_nat 5) 52 18 = true. Proof. vm_compute. reflexivity. Qed.
Theorem acc_cLi5_d e z : snd z <> 0 -> exists v, cLi5_d (NumR e) (ofC e z) = ofC e v /\ close 5 (1 / 10 ^ 15) v z.
Proof.
  intros H. eexists. split; [apply ev_cLi5_d, (or_introl H)|].
  apply (cval_close 5 _ _ (rq T_cLi5_d_pi) (rq (0, 1)%Z) 1 (4 / 10 ^ 17) (52 / 10 ^ 18) (21 / 10 ^ 17) (5 / 10 ^ 16)).
  - lia.
  - intros w Hw. exact (useU 5 _ 52 18 w ltac:(lia) ltac:(lia) U_cLi5_d Hw).
  - intros u Hu. exact (useT 5 _ 21 17 u ltac:(lia) T_cLi5_d Hu).
  - unfold rq, T_cLi5_d_pi. cbn [fst snd]. interval with (i_prec 200).
  - lra.
  - unfold T_cLi5_d_pi. numB.
  - cbn [pow]. ring.
  - lra.
  - lra.
  - exact H.
Qed.
Lemma T_cLi6_d : chkD 11 10 T_cLi6_d_bf (tl (qz 6)) 0 75 17 = true. Proof. vm_compute. reflexivity. Qed.
Lemma U_cLi6_d : chkD 1 1 (T_cLi6_d_hd ++ spread T_cLi6_d_cs) (igl 6) (EZ + Z.of_nat 6) 14 17 = true. Proof. vm_compute. reflexivity. Qed.
Theorem acc_cLi6_d e z : snd z <> 0 -> exists v, cLi6_d (NumR e) (ofC e z) = ofC e v /\ close 6 (3 / 10 ^ 15) v z.
Proof.
  intros H. eexists. split; [apply ev_cLi6_d, (or_introl H)|].
  apply (cval_close 6 _ _ (rq T_cLi6_d_pi) (rq (0, 1)%Z) (-1) (4 / 10 ^ 17) (14 / 10 ^ 17) (75 / 10 ^ 17) (9 / 10 ^ 16)).
  - lia.
  - intros w Hw. exact (useU 6 _ 14 17 w ltac:(lia) ltac:(lia) U_cLi6_d Hw).
  - intros u Hu. exact (useT 6 _ 75 17 u ltac:(lia) T_cLi6_d Hu).
  - unfold rq, T_cLi6_d_pi. cbn [fst snd]. interval with (i_prec 200).
  - lra.
  - unfold T_cLi6_d_pi. numB.
  - cbn [pow]. ring.
  - lra.
  - lra.
  - exact H.
Qed.
Lemma T_cLi3_l : chkD 11 10 T_cLi3_l_bf (tl (qz 3)) 0 44 19 = true. Proof. vm_compute. reflexivity. Qed.
Lemma U_cLi3_l : chkD 1 1 (T_cLi3_l_hd ++ spread T_cLi3_l_cs) (igl 3) (EZ + Z.of_nat 3) 25 21 = true. Proof. vm_compute. reflexivity. Qed.
Theorem acc_cLi3_l e z : snd z <> 0 -> exists v, cLi3_l (NumR e) (ofC e z) = ofC e v /\ close 3 (9 / 10 ^ 18) v z.
Proof.
  intros H. eexists. split; [apply ev_cLi3_l, (or_introl H)|].
  apply (cval_close 3 _ _ (rq T_cLi3_l_pi) (rq (164493406684822643647241516664602519, 10^35)%Z) 1 (5 / 10 ^ 36) (25 / 10 ^ 21) (44 / 10 ^ 19) (1 / 10 ^ 34)).
  - lia.
  - intros w Hw. exact (useU 3 _ 25 21 w ltac:(lia) ltac:(lia) U_cLi3_l Hw).
  - intros u Hu. exact (useT 3 _ 44 19 u ltac:(lia) T_cLi3_l Hu).
  - unfold rq, T_cLi3_l_pi. cbn [fst snd]. interval with (i_prec 200).
  - lra.
  - unfold T_cLi3_l_pi. numB.
  - cbn [pow]. ring.
  - lra.
  - lra.
  - exact H.
Qed.
Lemma T_cLi4_l : chkD 11 10 T_cLi4_l_bf (tl (qz 4)) 0 22 19 = true. Proof. vm_compute. reflexivity. Qed.
Lemma U_cLi4_l : chkD 1 1 (T_cLi4_l_hd ++ spread T_cLi4_l_cs) (igl 4) (EZ + Z.of_nat 4) 62 21 = true. Proof. vm_compute. reflexivity. Qed.
Theorem acc_cLi4_l e z : snd z <> 0 -> exists v, cLi4_l (NumR e) (ofC e z) = ofC e v /\ close 4 (45 / 10 ^ 19) v z.
Proof.
  intros H. eexists. split; [apply ev_cLi4_l, (or_introl H)|].
  apply (cval_close 4 _ _ (rq T_cLi4_l_pi) (rq (0, 1)%Z) (-1) (5 / 10 ^ 36) (62 / 10 ^ 21) (22 / 10 ^ 19) (1 / 10 ^ 34)).
  - lia.
  - intros w Hw. exact (useU 4 _ 62 21 w ltac:(lia) ltac:(lia) U_cLi4_l Hw).
  - intros u Hu. exact (useT 4 _ 22 19 u ltac:(lia) T_cLi4_l Hu).
  - unfold rq, T_cLi4_l_pi. cbn [fst snd]. interval with (i_prec 200).
  - lra.
  - unfold T_cLi4_l_pi. numB.
  - cbn [pow]. ring.
  - lra.
  - lra.
  - exact H.
Qed.
Lemma T_cLi5_l : chkD 11 10 T_cLi5_l_bf (tl (qz 5)) 0 87 19 = true. Proof. vm_compute. reflexivity. Qed.
Lemma U_cLi5_l : chkD 1 1 (T_cLi5_l_hd ++ spread T_cLi5_l_cs) (igl 5) (EZ + Z.of_nat 5) 19 20 = true. Proof. vm_compute. reflexivity. Qed.
Theorem acc_cLi5_l e z : snd z <> 0 -> exists v, cLi5_l (NumR e) (ofC e z) = ofC e v /\ close 5 (18 / 10 ^ 18) v z.
Proof.
  intros H. eexists. split; [apply ev_cLi5_l, (or_introl H)|].
  apply (cval_close 5 _ _ (rq T_cLi5_l_pi) (rq (0, 1)%Z) 1 (5 / 10 ^ 36) (19 / 10 ^ 20) (87 / 10 ^ 19) (1 / 10 ^ 34)).
  - lia.
  - intros w Hw. exact (useU 5 _ 19 20 w ltac:(lia) ltac:(lia) U_cLi5_l Hw).
  - intros u Hu. exact (useT 5 _ 87 19 u ltac:(lia) T_cLi5_l Hu).
  - unfold rq, T_cLi5_l_pi. cbn [fst snd]. interval with (i_prec 200).
  - lra.
  - unfold T_cLi5_l_pi. numB.
  - cbn [pow]. ring.
  - lra.
  - lra.
  - exact H.
Qed.
Lemma T_cLi6_l : chkD 11 10 T_cLi6_l_bf (tl (qz 6)) 0 18 19 = true. Proof. vm_compute. reflexivity. Qed.
Lemma U_cLi6_l : chkD 1 1 (T_cLi6_l_hd ++ spread T_cLi6_l_cs) (igl 6) (EZ + Z.of_nat 6) 7 19 = true. Proof. vm_compute. reflexivity. Qed.
Theorem acc_cLi6_l e z : snd z <> 0 -> exists v, cLi6_l (NumR e) (ofC e z) = ofC e v /\ close 6 (4 / 10 ^ 18) v z.
Proof.
  intros H. eexists. split; [apply ev_cLi6_l, (or_introl H)|].
  apply (cval_close 6 _ _ (rq T_cLi6_l_pi) (rq (0, 1)%Z) (-1) (5 / 10 ^ 36) (7 / 10 ^ 19) (18 / 10 ^ 19) (1 / 10 ^ 34)).
  - lia.
  - intros w Hw. exact (useU 6 _ 7 19 w ltac:(lia) ltac:(lia) U_cLi6_l Hw).
  - intros u Hu. exact (useT 6 _ 18 19 u ltac:(lia) T_cLi6_l Hu).
  - unfold rq, T_cLi6_l_pi. cbn [fst snd]. interval with (i_prec 200).
  - lra.
  - unfold T_cLi6_l_pi. numB.
  - cbn [pow]. ring.
  - lra.
  - lra.
  - exact H.
Qed.
Lemma T_cLi3_q : chkD 11 10 T_cLi3_q_bf (tl (qz 3)) 0 83 37 = true. Proof. vm_compute. reflexivity. Qed.
Lemma U_cLi3_q : chkD 1 1 (T_cLi3_q_hd ++ spread T_cLi3_q_cs) (igl 3) (EZ + Z.of_nat 3) 36 37 = true. Proof. vm_compute. reflexivity. Qed.
Theorem acc_cLi3_q e z : snd z <> 0 -> exists v, cLi3_q (NumR e) (ofC e z) = ofC e v /\ close 3 (1 / 10 ^ 34) v z.
Proof.
  intros H. eexists. split; [apply ev_cLi3_q, (or_introl H)|].
  apply (cval_close 3 _ _ (rq T_cLi3_q_pi) (rq (164493406684822643647241516664602519, 10^35)%Z) 1 (5 / 10 ^ 36) (36 / 10 ^ 37) (83 / 10 ^ 37) (7 / 10 ^ 35)).
  - lia.
  - intros w Hw. exact (useU 3 _ 36 37 w ltac:(lia) ltac:(lia) U_cLi3_q Hw).
  - intros u Hu. exact (useT 3 _ 83 37 u ltac:(lia) T_cLi3_q Hu).
  - unfold rq, T_cLi3_q_pi. cbn [fst snd]. interval with (i_prec 200).
  - lra.
  - unfold T_cLi3_q_pi. numB.
  - cbn [pow]. ring.
  - lra.
  - lra.
  - exact H.
Qed.
Lemma T_cLi4_q : chkD 11 10 T_cLi4_q_bf (tl (qz 4)) 0 18 36 = true. Proof. vm_compute. reflexivity. Qed.
Lemma U_cLi4_q : chkD 1 1 (T_cLi4_q_hd ++ spread T_cLi4_q_cs) (igl 4) (EZ + Z.of_nat 4) 6 36 = true. Proof. vm_compute. reflexivity. Qed.
Theorem acc_cLi4_q e z : snd z <> 0 -> exists v, cLi4_q (NumR e) (ofC e z) = ofC e v /\ close 4 (1 / 10 ^ 34) v z.
Proof.
  intros H. eexists. split; [apply ev_cLi4_q, (or_introl H)|].
  apply (cval_close 4 _ _ (rq T_cLi4_q_pi) (rq (0, 1)%Z) (-1) (5 / 10 ^ 36) (6 / 10 ^ 36) (18 / 10 ^ 36) (6 / 10 ^ 35)).
  - lia.
  - intros w Hw. exact (useU 4 _ 6 36 w ltac:(lia) ltac:(lia) U_cLi4_q Hw).
  - intros u Hu. exact (useT 4 _ 18 36 u ltac:(lia) T_cLi4_q Hu).
  - unfold rq, T_cLi4_q_pi. cbn [fst snd]. interval with (i_prec 200).
  - lra.
  - unfold T_cLi4_q_pi. numB.
  - cbn [pow]. ring.
  - lra.
  - lra.
  - exact H.
Qed.
Lemma T_cLi5_q : chkD 11 10 T_cLi5_q_bf (tl (qz 5)) 0 14 36 = true. Proof. vm_compute. reflexivity. Qed.
Lemma U_cLi5_q : chkD 1 1 (T_cLi5_q_hd ++ spread T_cLi5_q_cs) (igl 5) (EZ + Z.of_nat 5) 75 37 = true. Proof. vm_compute. reflexivity. Qed.
Theorem acc_cLi5_q e z : snd z <> 0 -> exists v, cLi5_q (NumR e) (ofC e z) = ofC e v /\ close 5 (1 / 10 ^ 34) v z.
Proof.
  intros H. eexists. split; [apply ev_cLi5_q, (or_introl H)|].
  apply (cval_close 5 _ _ (rq T_cLi5_q_pi) (rq (0, 1)%Z) 1 (5 / 10 ^ 36) (75 / 10 ^ 37) (14 / 10 ^ 36) (7 / 10 ^ 35)).
  - lia.
  - intros w Hw. exact (useU 5 _ 75 37 w ltac:(lia) ltac:(lia) U_cLi5_q Hw).
  - intros u Hu. exact (useT 5 _ 14 36 u ltac:(lia) T_cLi5_q Hu).
  - unfold rq, T_cLi5_q_pi. cbn [fst snd]. interval with (i_prec 200).
  - lra.
  - unfold T_cLi5_q_pi. numB.
  - cbn [pow]. ring.
  - lra.
  - lra.
  - exact H.
Qed.
Lemma T_cLi6_q : chkD 11 10 T_cLi6_q_bf (tl (qz 6)) 0 25 37 = true. Proof. vm_compute. reflexivity. Qed.
Lemma U_cLi6_q : chkD 1 1 (T_cLi6_q_hd ++ spread T_cLi6_q_cs) (igl 6) (EZ + Z.of_nat 6) 70 37 = true. Proof. vm_compute. reflexivity. Qed.
Theorem acc_cLi6_q e z : snd z <> 0 -> exists v, cLi6_q (NumR e) (ofC e z) = ofC e v /\ close 6 (2 / 10 ^ 34) v z.
Proof.
  intros H. eexists. split; [apply ev_cLi6_q, (or_introl H)|].
  apply (cval_close 6 _ _ (rq T_cLi6_q_pi) (rq (0, 1)%Z) (-1) (5 / 10 ^ 36) (70 / 10 ^ 37) (25 / 10 ^ 37) (12 / 10 ^ 35)).
  - lia.
  - intros w Hw. exact (useU 6 _ 70 37 w ltac:(lia) ltac:(lia) U_cLi6_q Hw).
  - intros u Hu. exact (useT 6 _ 25 37 u ltac:(lia) T_cLi6_q Hu).
  - unfold rq, T_cLi6_q_pi. cbn [fst snd]. interval with (i_prec 200).
  - lra.
  - unfold T_cLi6_q_pi. numB.
  - cbn [pow]. ring.
  - lra.
  - lra.
  - exact H.
Qed.
