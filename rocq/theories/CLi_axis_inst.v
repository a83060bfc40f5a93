(** * Complex Li3 .. Li6 on the real axis in exact arithmetic (generated by tools/gen_cli_axis.py) *)
From Coq Require Import ZArith Reals List Bool Lra Lia Psatz.
From Coquelicot Require Import Coquelicot.
From Interval Require Import Tactic.
From Verif Require Import Num NumR Spec Eval_R Consts Cplx Ccalc CLi Cpoly CLi_unity CLi_T CLi_ref Polylog Polylog_eqs Rest Model_LiC CLi_code CLi_eval CLi_dev CLi_rest CLi_acc CLi_inst CLi_axis CLi_axis2.
Import ListNotations.
Local Open Scope R_scope.
Lemma m1_3 : ReLi 3 (-1) = rq (-75, 10 ^ 2)%Z * ReLi 3 1. Proof. pose proof (ReLi_at_m1 3 ltac:(lia)). unfold rq. cbn [fst snd]. change (10 ^ 2)%Z with 100%Z. lra. Qed.
Lemma m1_5 : ReLi 5 (-1) = - (15 / 16) * ReLi 5 1. Proof. pose proof (ReLi_at_m1 5 ltac:(lia)). lra. Qed.
Lemma m1_6 : ReLi 6 (-1) = - (31 / 32) * ReLi 6 1. Proof. pose proof (ReLi_at_m1 6 ltac:(lia)). lra. Qed.
Ltac val := unfold ofC, RtoC; cbn [fst snd]; repeat first [rewrite lit0 | rewrite litneg | rewrite omul | rewrite odivq by discriminate]; reflexivity.
Lemma HU_cLi5_d : forall w, Cmod w <= 1 -> Cmod (Cminus (cpev (map rq (T_cLi5_d_hd ++ spread T_cLi5_d_cs)) w) (cpev (IG (zl DD bz) 5) w)) <= (52 / 10 ^ 18). Proof. intros w Hw; exact (useU 5 _ 52 18 w ltac:(lia) ltac:(lia) U_cLi5_d Hw). Qed.
Lemma HT_cLi5_d : forall u, Cmod u <= 11 / 10 -> Cmod (Cminus (cpev (map rq T_cLi5_d_bf) u) (cpev (zl DD (tl (qz 5))) u)) <= (21 / 10 ^ 17). Proof. intros u Hu; exact (useT 5 _ 21 17 u ltac:(lia) T_cLi5_d Hu). Qed.
Lemma Hp_cLi5_d : Rabs (rq T_cLi5_d_pi - PI) <= (4 / 10 ^ 17). Proof. unfold rq, T_cLi5_d_pi. cbn [fst snd]. interval with (i_prec 200). Qed.
Lemma HR_cLi5_d : Bd (4 / 10 ^ 17) (rlist 5 (rq T_cLi5_d_pi) (rq (0, 1)%Z)) (rlist 5 PI (PI * PI / 6)) <= (5 / 10 ^ 16). Proof. unfold T_cLi5_d_pi. numB. Qed.
Lemma at0_cLi5_d e : cLi5_d (NumR e) (ofC e (RtoC 0)) = ofC e (RtoC 0).
Proof. unfold cLi5_d. cbv zeta. etransitivity; [apply pick_a; tt|]. reflexivity. Qed.
Lemma at1_cLi5_d e : cLi5_d (NumR e) (ofC e (RtoC 1)) = ofC e (RtoC (rq (10369277551433699, 10^16)%Z)).
Proof. unfold cLi5_d. cbv zeta. etransitivity; [apply pick_b; tt|]. val. Qed.
Lemma atm1_cLi5_d e : cLi5_d (NumR e) (ofC e (RtoC (-1))) = ofC e (RtoC (rq (-15, 1)%Z * rq (10369277551433699, 10^16)%Z / 16)).
Proof. unfold cLi5_d. cbv zeta. etransitivity; [apply pick_c; tt|]. val. Qed.
Theorem accR_cLi5_d e x : exists v, cLi5_d (NumR e) (ofC e (RtoC x)) = ofC e v /\ closeR 5 (1 / 10 ^ 15) v x.
Proof.
  destruct (axis_all 5 (T_cLi5_d_hd ++ spread T_cLi5_d_cs) T_cLi5_d_bf (rq T_cLi5_d_pi) (rq (0, 1)%Z) 1 (4 / 10 ^ 17) (52 / 10 ^ 18) (21 / 10 ^ 17) (5 / 10 ^ 16) (1 / 10 ^ 15) ltac:(lia) HU_cLi5_d HT_cLi5_d Hp_cLi5_d ltac:(lra) HR_cLi5_d ltac:(cbn [pow]; ring) ltac:(lra) ltac:(lra)) as (SPR & SP0 & SP1 & SPM1 & SPH).
  destruct (Req_dec x 0) as [->|N0]; [eexists; split; [apply at0_cLi5_d|exact SP0]|].
  destruct (Req_dec x 1) as [->|N1]; [eexists; split; [apply at1_cLi5_d|apply SP1; reflexivity]|].
  destruct (Req_dec x (-1)) as [->|N2].
  { eexists. split; [apply atm1_cLi5_d|]. apply (SPM1 _ (- (15 / 16))); [unfold T_cLi5_d_hd; cbn [app map hd]; replace (rq (-15, 1)%Z) with (-15) by (unfold rq; cbn [fst snd]; field); generalize (rq (10369277551433699, 10^16)%Z); intros; field|exact m1_5|interval]. }
  eexists. split; [apply ev_cLi5_d; right; unfold RtoC; cbn [fst]; repeat split; assumption|]. apply SPR; assumption.
Qed.
Lemma HU_cLi6_d : forall w, Cmod w <= 1 -> Cmod (Cminus (cpev (map rq (T_cLi6_d_hd ++ spread T_cLi6_d_cs)) w) (cpev (IG (zl DD bz) 6) w)) <= (14 / 10 ^ 17). Proof. intros w Hw; exact (useU 6 _ 14 17 w ltac:(lia) ltac:(lia) U_cLi6_d Hw). Qed.
Lemma HT_cLi6_d : forall u, Cmod u <= 11 / 10 -> Cmod (Cminus (cpev (map rq T_cLi6_d_bf) u) (cpev (zl DD (tl (qz 6))) u)) <= (75 / 10 ^ 17). Proof. intros u Hu; exact (useT 6 _ 75 17 u ltac:(lia) T_cLi6_d Hu). Qed.
Lemma Hp_cLi6_d : Rabs (rq T_cLi6_d_pi - PI) <= (4 / 10 ^ 17). Proof. unfold rq, T_cLi6_d_pi. cbn [fst snd]. interval with (i_prec 200). Qed.
Lemma HR_cLi6_d : Bd (4 / 10 ^ 17) (rlist 6 (rq T_cLi6_d_pi) (rq (0, 1)%Z)) (rlist 6 PI (PI * PI / 6)) <= (9 / 10 ^ 16). Proof. unfold T_cLi6_d_pi. numB. Qed.
Lemma at0_cLi6_d e : cLi6_d (NumR e) (ofC e (RtoC 0)) = ofC e (RtoC 0).
Proof. unfold cLi6_d. cbv zeta. etransitivity; [apply pick_a; tt|]. reflexivity. Qed.
Lemma at1_cLi6_d e : cLi6_d (NumR e) (ofC e (RtoC 1)) = ofC e (RtoC (rq (10173430619844491, 10^16)%Z)).
Proof. unfold cLi6_d. cbv zeta. etransitivity; [apply pick_b; tt|]. val. Qed.
Lemma atm1_cLi6_d e : cLi6_d (NumR e) (ofC e (RtoC (-1))) = ofC e (RtoC (rq (-31, 1)%Z * rq (10173430619844491, 10^16)%Z / 32)).
Proof. unfold cLi6_d. cbv zeta. etransitivity; [apply pick_c; tt|]. val. Qed.
Theorem accR_cLi6_d e x : exists v, cLi6_d (NumR e) (ofC e (RtoC x)) = ofC e v /\ closeR 6 (3 / 10 ^ 15) v x.
Proof.
  destruct (axis_all 6 (T_cLi6_d_hd ++ spread T_cLi6_d_cs) T_cLi6_d_bf (rq T_cLi6_d_pi) (rq (0, 1)%Z) (-1) (4 / 10 ^ 17) (14 / 10 ^ 17) (75 / 10 ^ 17) (9 / 10 ^ 16) (3 / 10 ^ 15) ltac:(lia) HU_cLi6_d HT_cLi6_d Hp_cLi6_d ltac:(lra) HR_cLi6_d ltac:(cbn [pow]; ring) ltac:(lra) ltac:(lra)) as (SPR & SP0 & SP1 & SPM1 & SPH).
  destruct (Req_dec x 0) as [->|N0]; [eexists; split; [apply at0_cLi6_d|exact SP0]|].
  destruct (Req_dec x 1) as [->|N1]; [eexists; split; [apply at1_cLi6_d|apply SP1; reflexivity]|].
  destruct (Req_dec x (-1)) as [->|N2].
  { eexists. split; [apply atm1_cLi6_d|]. apply (SPM1 _ (- (31 / 32))); [unfold T_cLi6_d_hd; cbn [app map hd]; replace (rq (-31, 1)%Z) with (-31) by (unfold rq; cbn [fst snd]; field); generalize (rq (10173430619844491, 10^16)%Z); intros; field|exact m1_6|interval]. }
  eexists. split; [apply ev_cLi6_d; right; unfold RtoC; cbn [fst]; repeat split; assumption|]. apply SPR; assumption.
Qed.
Lemma HU_cLi3_l : forall w, Cmod w <= 1 -> Cmod (Cminus (cpev (map rq (T_cLi3_l_hd ++ spread T_cLi3_l_cs)) w) (cpev (IG (zl DD bz) 3) w)) <= (25 / 10 ^ 21). Proof. intros w Hw; exact (useU 3 _ 25 21 w ltac:(lia) ltac:(lia) U_cLi3_l Hw). Qed.
Lemma HT_cLi3_l : forall u, Cmod u <= 11 / 10 -> Cmod (Cminus (cpev (map rq T_cLi3_l_bf) u) (cpev (zl DD (tl (qz 3))) u)) <= (44 / 10 ^ 19). Proof. intros u Hu; exact (useT 3 _ 44 19 u ltac:(lia) T_cLi3_l Hu). Qed.
Lemma Hp_cLi3_l : Rabs (rq T_cLi3_l_pi - PI) <= (5 / 10 ^ 36). Proof. unfold rq, T_cLi3_l_pi. cbn [fst snd]. interval with (i_prec 200). Qed.
Lemma HR_cLi3_l : Bd (5 / 10 ^ 36) (rlist 3 (rq T_cLi3_l_pi) (rq (164493406684822643647241516664602519, 10^35)%Z)) (rlist 3 PI (PI * PI / 6)) <= (1 / 10 ^ 34). Proof. unfold T_cLi3_l_pi. numB. Qed.
Lemma at0_cLi3_l e : cLi3_l (NumR e) (ofC e (RtoC 0)) = ofC e (RtoC 0).
Proof. unfold cLi3_l. cbv zeta. etransitivity; [apply pick_a; tt|]. reflexivity. Qed.
Lemma at1_cLi3_l e : cLi3_l (NumR e) (ofC e (RtoC 1)) = ofC e (RtoC (rq (120205690315959428539973816151144999, 10^35)%Z)).
Proof. unfold cLi3_l. cbv zeta. etransitivity; [apply pick_b; tt|]. val. Qed.
Lemma atm1_cLi3_l e : cLi3_l (NumR e) (ofC e (RtoC (-1))) = ofC e (RtoC (rq (-75, 10 ^ 2)%Z * rq (120205690315959428539973816151144999, 10^35)%Z)).
Proof. unfold cLi3_l. cbv zeta. etransitivity; [apply pick_c; tt|]. val. Qed.
Lemma ath_cLi3_l e : cLi3_l (NumR e) (ofC e (RtoC (/ 2))) = ofC e (RtoC (rq (537213193608040200940623225594965827, 10 ^ 36)%Z)).
Proof. unfold cLi3_l. cbv zeta. etransitivity; [apply pick_d; tt|]. val. Qed.
Theorem accR_cLi3_l e x : exists v, cLi3_l (NumR e) (ofC e (RtoC x)) = ofC e v /\ closeR 3 (9 / 10 ^ 18) v x.
Proof.
  destruct (axis_all 3 (T_cLi3_l_hd ++ spread T_cLi3_l_cs) T_cLi3_l_bf (rq T_cLi3_l_pi) (rq (164493406684822643647241516664602519, 10^35)%Z) 1 (5 / 10 ^ 36) (25 / 10 ^ 21) (44 / 10 ^ 19) (1 / 10 ^ 34) (9 / 10 ^ 18) ltac:(lia) HU_cLi3_l HT_cLi3_l Hp_cLi3_l ltac:(lra) HR_cLi3_l ltac:(cbn [pow]; ring) ltac:(lra) ltac:(lra)) as (SPR & SP0 & SP1 & SPM1 & SPH).
  destruct (Req_dec x 0) as [->|N0]; [eexists; split; [apply at0_cLi3_l|exact SP0]|].
  destruct (Req_dec x 1) as [->|N1]; [eexists; split; [apply at1_cLi3_l|apply SP1; reflexivity]|].
  destruct (Req_dec x (-1)) as [->|N2].
  { eexists. split; [apply atm1_cLi3_l|]. apply (SPM1 _ (rq (-75, 10 ^ 2)%Z)); [reflexivity|exact m1_3|unfold rq; cbn [fst snd]; interval]. }
  destruct (Req_dec x (/ 2)) as [->|N3].
  { eexists. split; [apply ath_cLi3_l|]. apply SPH. unfold T_cLi3_l_bf, rq. cbn [map fold_right fst snd]. interval with (i_prec 200). }
  eexists. split; [apply ev_cLi3_l; right; unfold RtoC; cbn [fst]; repeat split; assumption|]. apply SPR; assumption.
Qed.
Lemma HU_cLi4_l : forall w, Cmod w <= 1 -> Cmod (Cminus (cpev (map rq (T_cLi4_l_hd ++ spread T_cLi4_l_cs)) w) (cpev (IG (zl DD bz) 4) w)) <= (62 / 10 ^ 21). Proof. intros w Hw; exact (useU 4 _ 62 21 w ltac:(lia) ltac:(lia) U_cLi4_l Hw). Qed.
Lemma HT_cLi4_l : forall u, Cmod u <= 11 / 10 -> Cmod (Cminus (cpev (map rq T_cLi4_l_bf) u) (cpev (zl DD (tl (qz 4))) u)) <= (22 / 10 ^ 19). Proof. intros u Hu; exact (useT 4 _ 22 19 u ltac:(lia) T_cLi4_l Hu). Qed.
Lemma Hp_cLi4_l : Rabs (rq T_cLi4_l_pi - PI) <= (5 / 10 ^ 36). Proof. unfold rq, T_cLi4_l_pi. cbn [fst snd]. interval with (i_prec 200). Qed.
Lemma HR_cLi4_l : Bd (5 / 10 ^ 36) (rlist 4 (rq T_cLi4_l_pi) (rq (0, 1)%Z)) (rlist 4 PI (PI * PI / 6)) <= (1 / 10 ^ 34). Proof. unfold T_cLi4_l_pi. numB. Qed.
Lemma at0_cLi4_l e : cLi4_l (NumR e) (ofC e (RtoC 0)) = ofC e (RtoC 0).
Proof. unfold cLi4_l. cbv zeta. etransitivity; [apply pick_a; tt|]. reflexivity. Qed.
Lemma at1_cLi4_l e : cLi4_l (NumR e) (ofC e (RtoC 1)) = ofC e (RtoC (rq (10823232337111381915160036965411679, 10^34)%Z)).
Proof. unfold cLi4_l. cbv zeta. etransitivity; [apply pick_b; tt|]. val. Qed.
Lemma atm1_cLi4_l e : cLi4_l (NumR e) (ofC e (RtoC (-1))) = ofC e (RtoC (rq (-7, 1)%Z * (rq T_cLi4_l_pi * rq T_cLi4_l_pi * (rq T_cLi4_l_pi * rq T_cLi4_l_pi)) / 720)).
Proof. unfold cLi4_l. cbv zeta. etransitivity; [apply pick_c; tt|]. val. Qed.
Theorem accR_cLi4_l e x : exists v, cLi4_l (NumR e) (ofC e (RtoC x)) = ofC e v /\ closeR 4 (45 / 10 ^ 19) v x.
Proof.
  destruct (axis_all 4 (T_cLi4_l_hd ++ spread T_cLi4_l_cs) T_cLi4_l_bf (rq T_cLi4_l_pi) (rq (0, 1)%Z) (-1) (5 / 10 ^ 36) (62 / 10 ^ 21) (22 / 10 ^ 19) (1 / 10 ^ 34) (45 / 10 ^ 19) ltac:(lia) HU_cLi4_l HT_cLi4_l Hp_cLi4_l ltac:(lra) HR_cLi4_l ltac:(cbn [pow]; ring) ltac:(lra) ltac:(lra)) as (SPR & SP0 & SP1 & SPM1 & SPH).
  destruct (Req_dec x 0) as [->|N0]; [eexists; split; [apply at0_cLi4_l|exact SP0]|].
  destruct (Req_dec x 1) as [->|N1]; [eexists; split; [apply at1_cLi4_l|apply SP1; reflexivity]|].
  destruct (Req_dec x (-1)) as [->|N2].
  { eexists. split; [apply atm1_cLi4_l|]. apply atx; [lra|]. rewrite eta4, (Rabs_left (-1)) by lra. unfold rq, T_cLi4_l_pi. cbn [fst snd]. interval with (i_prec 200). }
  eexists. split; [apply ev_cLi4_l; right; unfold RtoC; cbn [fst]; repeat split; assumption|]. apply SPR; assumption.
Qed.
Lemma HU_cLi5_l : forall w, Cmod w <= 1 -> Cmod (Cminus (cpev (map rq (T_cLi5_l_hd ++ spread T_cLi5_l_cs)) w) (cpev (IG (zl DD bz) 5) w)) <= (19 / 10 ^ 20). Proof. intros w Hw; exact (useU 5 _ 19 20 w ltac:(lia) ltac:(lia) U_cLi5_l Hw). Qed.
Lemma HT_cLi5_l : forall u, Cmod u <= 11 / 10 -> Cmod (Cminus (cpev (map rq T_cLi5_l_bf) u) (cpev (zl DD (tl (qz 5))) u)) <= (87 / 10 ^ 19). Proof. intros u Hu; exact (useT 5 _ 87 19 u ltac:(lia) T_cLi5_l Hu). Qed.
Lemma Hp_cLi5_l : Rabs (rq T_cLi5_l_pi - PI) <= (5 / 10 ^ 36). Proof. unfold rq, T_cLi5_l_pi. cbn [fst snd]. interval with (i_prec 200). Qed.
Lemma HR_cLi5_l : Bd (5 / 10 ^ 36) (rlist 5 (rq T_cLi5_l_pi) (rq (0, 1)%Z)) (rlist 5 PI (PI * PI / 6)) <= (1 / 10 ^ 34). Proof. unfold T_cLi5_l_pi. numB. Qed.
Lemma at0_cLi5_l e : cLi5_l (NumR e) (ofC e (RtoC 0)) = ofC e (RtoC 0).
Proof. unfold cLi5_l. cbv zeta. etransitivity; [apply pick_a; tt|]. reflexivity. Qed.
Lemma at1_cLi5_l e : cLi5_l (NumR e) (ofC e (RtoC 1)) = ofC e (RtoC (rq (103692775514336992633136548645703417, 10^35)%Z)).
Proof. unfold cLi5_l. cbv zeta. etransitivity; [apply pick_b; tt|]. val. Qed.
Lemma atm1_cLi5_l e : cLi5_l (NumR e) (ofC e (RtoC (-1))) = ofC e (RtoC (rq (-15, 1)%Z * rq (103692775514336992633136548645703417, 10^35)%Z / 16)).
Proof. unfold cLi5_l. cbv zeta. etransitivity; [apply pick_c; tt|]. val. Qed.
Theorem accR_cLi5_l e x : exists v, cLi5_l (NumR e) (ofC e (RtoC x)) = ofC e v /\ closeR 5 (18 / 10 ^ 18) v x.
Proof.
  destruct (axis_all 5 (T_cLi5_l_hd ++ spread T_cLi5_l_cs) T_cLi5_l_bf (rq T_cLi5_l_pi) (rq (0, 1)%Z) 1 (5 / 10 ^ 36) (19 / 10 ^ 20) (87 / 10 ^ 19) (1 / 10 ^ 34) (18 / 10 ^ 18) ltac:(lia) HU_cLi5_l HT_cLi5_l Hp_cLi5_l ltac:(lra) HR_cLi5_l ltac:(cbn [pow]; ring) ltac:(lra) ltac:(lra)) as (SPR & SP0 & SP1 & SPM1 & SPH).
  destruct (Req_dec x 0) as [->|N0]; [eexists; split; [apply at0_cLi5_l|exact SP0]|].
  destruct (Req_dec x 1) as [->|N1]; [eexists; split; [apply at1_cLi5_l|apply SP1; reflexivity]|].
  destruct (Req_dec x (-1)) as [->|N2].
  { eexists. split; [apply atm1_cLi5_l|]. apply (SPM1 _ (- (15 / 16))); [unfold T_cLi5_l_hd; cbn [app map hd]; replace (rq (-15, 1)%Z) with (-15) by (unfold rq; cbn [fst snd]; field); generalize (rq (103692775514336992633136548645703417, 10^35)%Z); intros; field|exact m1_5|interval]. }
  eexists. split; [apply ev_cLi5_l; right; unfold RtoC; cbn [fst]; repeat split; assumption|]. apply SPR; assumption.
Qed.
Lemma HU_cLi6_l : forall w, Cmod w <= 1 -> Cmod (Cminus (cpev (map rq (T_cLi6_l_hd ++ spread T_cLi6_l_cs)) w) (cpev (IG (zl DD bz) 6) w)) <= (7 / 10 ^ 19). Proof. intros w Hw; exact (useU 6 _ 7 19 w ltac:(lia) ltac:(lia) U_cLi6_l Hw). Qed.
Lemma HT_cLi6_l : forall u, Cmod u <= 11 / 10 -> Cmod (Cminus (cpev (map rq T_cLi6_l_bf) u) (cpev (zl DD (tl (qz 6))) u)) <= (18 / 10 ^ 19). Proof. intros u Hu; exact (useT 6 _ 18 19 u ltac:(lia) T_cLi6_l Hu). Qed.
Lemma Hp_cLi6_l : Rabs (rq T_cLi6_l_pi - PI) <= (5 / 10 ^ 36). Proof. unfold rq, T_cLi6_l_pi. cbn [fst snd]. interval with (i_prec 200). Qed.
Lemma HR_cLi6_l : Bd (5 / 10 ^ 36) (rlist 6 (rq T_cLi6_l_pi) (rq (0, 1)%Z)) (rlist 6 PI (PI * PI / 6)) <= (1 / 10 ^ 34). Proof. unfold T_cLi6_l_pi. numB. Qed.
Lemma at0_cLi6_l e : cLi6_l (NumR e) (ofC e (RtoC 0)) = ofC e (RtoC 0).
Proof. unfold cLi6_l. cbv zeta. etransitivity; [apply pick_a; tt|]. reflexivity. Qed.
Lemma at1_cLi6_l e : cLi6_l (NumR e) (ofC e (RtoC 1)) = ofC e (RtoC (rq (101734306198444913971451792979092053, 10^35)%Z)).
Proof. unfold cLi6_l. cbv zeta. etransitivity; [apply pick_b; tt|]. val. Qed.
Lemma atm1_cLi6_l e : cLi6_l (NumR e) (ofC e (RtoC (-1))) = ofC e (RtoC (rq (-31, 1)%Z * rq (101734306198444913971451792979092053, 10^35)%Z / 32)).
Proof. unfold cLi6_l. cbv zeta. etransitivity; [apply pick_c; tt|]. val. Qed.
Theorem accR_cLi6_l e x : exists v, cLi6_l (NumR e) (ofC e (RtoC x)) = ofC e v /\ closeR 6 (4 / 10 ^ 18) v x.
Proof.
  destruct (axis_all 6 (T_cLi6_l_hd ++ spread T_cLi6_l_cs) T_cLi6_l_bf (rq T_cLi6_l_pi) (rq (0, 1)%Z) (-1) (5 / 10 ^ 36) (7 / 10 ^ 19) (18 / 10 ^ 19) (1 / 10 ^ 34) (4 / 10 ^ 18) ltac:(lia) HU_cLi6_l HT_cLi6_l Hp_cLi6_l ltac:(lra) HR_cLi6_l ltac:(cbn [pow]; ring) ltac:(lra) ltac:(lra)) as (SPR & SP0 & SP1 & SPM1 & SPH).
  destruct (Req_dec x 0) as [->|N0]; [eexists; split; [apply at0_cLi6_l|exact SP0]|].
  destruct (Req_dec x 1) as [->|N1]; [eexists; split; [apply at1_cLi6_l|apply SP1; reflexivity]|].
  destruct (Req_dec x (-1)) as [->|N2].
  { eexists. split; [apply atm1_cLi6_l|]. apply (SPM1 _ (- (31 / 32))); [unfold T_cLi6_l_hd; cbn [app map hd]; replace (rq (-31, 1)%Z) with (-31) by (unfold rq; cbn [fst snd]; field); generalize (rq (101734306198444913971451792979092053, 10^35)%Z); intros; field|exact m1_6|interval]. }
  eexists. split; [apply ev_cLi6_l; right; unfold RtoC; cbn [fst]; repeat split; assumption|]. apply SPR; assumption.
Qed.
Lemma HU_cLi3_q : forall w, Cmod w <= 1 -> Cmod (Cminus (cpev (map rq (T_cLi3_q_hd ++ spread T_cLi3_q_cs)) w) (cpev (IG (zl DD bz) 3) w)) <= (36 / 10 ^ 37). Proof. intros w Hw; exact (useU 3 _ 36 37 w ltac:(lia) ltac:(lia) U_cLi3_q Hw). Qed.
Lemma HT_cLi3_q : forall u, Cmod u <= 11 / 10 -> Cmod (Cminus (cpev (map rq T_cLi3_q_bf) u) (cpev (zl DD (tl (qz 3))) u)) <= (83 / 10 ^ 37). Proof. intros u Hu; exact (useT 3 _ 83 37 u ltac:(lia) T_cLi3_q Hu). Qed.
Lemma Hp_cLi3_q : Rabs (rq T_cLi3_q_pi - PI) <= (5 / 10 ^ 36). Proof. unfold rq, T_cLi3_q_pi. cbn [fst snd]. interval with (i_prec 200). Qed.
Lemma HR_cLi3_q : Bd (5 / 10 ^ 36) (rlist 3 (rq T_cLi3_q_pi) (rq (164493406684822643647241516664602519, 10^35)%Z)) (rlist 3 PI (PI * PI / 6)) <= (7 / 10 ^ 35). Proof. unfold T_cLi3_q_pi. numB. Qed.
Lemma at0_cLi3_q e : cLi3_q (NumR e) (ofC e (RtoC 0)) = ofC e (RtoC 0).
Proof. unfold cLi3_q. cbv zeta. etransitivity; [apply pick_a; tt|]. reflexivity. Qed.
Lemma at1_cLi3_q e : cLi3_q (NumR e) (ofC e (RtoC 1)) = ofC e (RtoC (rq (120205690315959428539973816151144999, 10^35)%Z)).
Proof. unfold cLi3_q. cbv zeta. etransitivity; [apply pick_b; tt|]. val. Qed.
Lemma atm1_cLi3_q e : cLi3_q (NumR e) (ofC e (RtoC (-1))) = ofC e (RtoC (rq (-75, 10 ^ 2)%Z * rq (120205690315959428539973816151144999, 10^35)%Z)).
Proof. unfold cLi3_q. cbv zeta. etransitivity; [apply pick_c; tt|]. val. Qed.
Lemma ath_cLi3_q e : cLi3_q (NumR e) (ofC e (RtoC (/ 2))) = ofC e (RtoC (rq (537213193608040200940623225594965827, 10 ^ 36)%Z)).
Proof. unfold cLi3_q. cbv zeta. etransitivity; [apply pick_d; tt|]. val. Qed.
Theorem accR_cLi3_q e x : exists v, cLi3_q (NumR e) (ofC e (RtoC x)) = ofC e v /\ closeR 3 (1 / 10 ^ 34) v x.
Proof.
  destruct (axis_all 3 (T_cLi3_q_hd ++ spread T_cLi3_q_cs) T_cLi3_q_bf (rq T_cLi3_q_pi) (rq (164493406684822643647241516664602519, 10^35)%Z) 1 (5 / 10 ^ 36) (36 / 10 ^ 37) (83 / 10 ^ 37) (7 / 10 ^ 35) (1 / 10 ^ 34) ltac:(lia) HU_cLi3_q HT_cLi3_q Hp_cLi3_q ltac:(lra) HR_cLi3_q ltac:(cbn [pow]; ring) ltac:(lra) ltac:(lra)) as (SPR & SP0 & SP1 & SPM1 & SPH).
  destruct (Req_dec x 0) as [->|N0]; [eexists; split; [apply at0_cLi3_q|exact SP0]|].
  destruct (Req_dec x 1) as [->|N1]; [eexists; split; [apply at1_cLi3_q|apply SP1; reflexivity]|].
  destruct (Req_dec x (-1)) as [->|N2].
  { eexists. split; [apply atm1_cLi3_q|]. apply (SPM1 _ (rq (-75, 10 ^ 2)%Z)); [reflexivity|exact m1_3|unfold rq; cbn [fst snd]; interval]. }
  destruct (Req_dec x (/ 2)) as [->|N3].
  { eexists. split; [apply ath_cLi3_q|]. apply SPH. unfold T_cLi3_q_bf, rq. cbn [map fold_right fst snd]. interval with (i_prec 200). }
  eexists. split; [apply ev_cLi3_q; right; unfold RtoC; cbn [fst]; repeat split; assumption|]. apply SPR; assumption.
Qed.
Lemma HU_cLi4_q : forall w, Cmod w <= 1 -> Cmod (Cminus (cpev (map rq (T_cLi4_q_hd ++ spread T_cLi4_q_cs)) w) (cpev (IG (zl DD bz) 4) w)) <= (6 / 10 ^ 36). Proof. intros w Hw; exact (useU 4 _ 6 36 w ltac:(lia) ltac:(lia) U_cLi4_q Hw). Qed.
Lemma HT_cLi4_q : forall u, Cmod u <= 11 / 10 -> Cmod (Cminus (cpev (map rq T_cLi4_q_bf) u) (cpev (zl DD (tl (qz 4))) u)) <= (18 / 10 ^ 36). Proof. intros u Hu; exact (useT 4 _ 18 36 u ltac:(lia) T_cLi4_q Hu). Qed.
Lemma Hp_cLi4_q : Rabs (rq T_cLi4_q_pi - PI) <= (5 / 10 ^ 36). Proof. unfold rq, T_cLi4_q_pi. cbn [fst snd]. interval with (i_prec 200). Qed.
Lemma HR_cLi4_q : Bd (5 / 10 ^ 36) (rlist 4 (rq T_cLi4_q_pi) (rq (0, 1)%Z)) (rlist 4 PI (PI * PI / 6)) <= (6 / 10 ^ 35). Proof. unfold T_cLi4_q_pi. numB. Qed.
Lemma at0_cLi4_q e : cLi4_q (NumR e) (ofC e (RtoC 0)) = ofC e (RtoC 0).
Proof. unfold cLi4_q. cbv zeta. etransitivity; [apply pick_a; tt|]. reflexivity. Qed.
Lemma at1_cLi4_q e : cLi4_q (NumR e) (ofC e (RtoC 1)) = ofC e (RtoC (rq (10823232337111381915160036965411679, 10^34)%Z)).
Proof. unfold cLi4_q. cbv zeta. etransitivity; [apply pick_b; tt|]. val. Qed.
Lemma atm1_cLi4_q e : cLi4_q (NumR e) (ofC e (RtoC (-1))) = ofC e (RtoC (rq (-7, 1)%Z * (rq T_cLi4_q_pi * rq T_cLi4_q_pi * (rq T_cLi4_q_pi * rq T_cLi4_q_pi)) / 720)).
Proof. unfold cLi4_q. cbv zeta. etransitivity; [apply pick_c; tt|]. val. Qed.
Theorem accR_cLi4_q e x : exists v, cLi4_q (NumR e) (ofC e (RtoC x)) = ofC e v /\ closeR 4 (1 / 10 ^ 34) v x.
Proof.
  destruct (axis_all 4 (T_cLi4_q_hd ++ spread T_cLi4_q_cs) T_cLi4_q_bf (rq T_cLi4_q_pi) (rq (0, 1)%Z) (-1) (5 / 10 ^ 36) (6 / 10 ^ 36) (18 / 10 ^ 36) (6 / 10 ^ 35) (1 / 10 ^ 34) ltac:(lia) HU_cLi4_q HT_cLi4_q Hp_cLi4_q ltac:(lra) HR_cLi4_q ltac:(cbn [pow]; ring) ltac:(lra) ltac:(lra)) as (SPR & SP0 & SP1 & SPM1 & SPH).
  destruct (Req_dec x 0) as [->|N0]; [eexists; split; [apply at0_cLi4_q|exact SP0]|].
  destruct (Req_dec x 1) as [->|N1]; [eexists; split; [apply at1_cLi4_q|apply SP1; reflexivity]|].
  destruct (Req_dec x (-1)) as [->|N2].
  { eexists. split; [apply atm1_cLi4_q|]. apply atx; [lra|]. rewrite eta4, (Rabs_left (-1)) by lra. unfold rq, T_cLi4_q_pi. cbn [fst snd]. interval with (i_prec 200). }
  eexists. split; [apply ev_cLi4_q; right; unfold RtoC; cbn [fst]; repeat split; assumption|]. apply SPR; assumption.
Qed.
Lemma HU_cLi5_q : forall w, Cmod w <= 1 -> Cmod (Cminus (cpev (map rq (T_cLi5_q_hd ++ spread T_cLi5_q_cs)) w) (cpev (IG (zl DD bz) 5) w)) <= (75 / 10 ^ 37). Proof. intros w Hw; exact (useU 5 _ 75 37 w ltac:(lia) ltac:(lia) U_cLi5_q Hw). Qed.
Lemma HT_cLi5_q : forall u, Cmod u <= 11 / 10 -> Cmod (Cminus (cpev (map rq T_cLi5_q_bf) u) (cpev (zl DD (tl (qz 5))) u)) <= (14 / 10 ^ 36). Proof. intros u Hu; exact (useT 5 _ 14 36 u ltac:(lia) T_cLi5_q Hu). Qed.
Lemma Hp_cLi5_q : Rabs (rq T_cLi5_q_pi - PI) <= (5 / 10 ^ 36). Proof. unfold rq, T_cLi5_q_pi. cbn [fst snd]. interval with (i_prec 200). Qed.
Lemma HR_cLi5_q : Bd (5 / 10 ^ 36) (rlist 5 (rq T_cLi5_q_pi) (rq (0, 1)%Z)) (rlist 5 PI (PI * PI / 6)) <= (7 / 10 ^ 35). Proof. unfold T_cLi5_q_pi. numB. Qed.
Lemma at0_cLi5_q e : cLi5_q (NumR e) (ofC e (RtoC 0)) = ofC e (RtoC 0).
Proof. unfold cLi5_q. cbv zeta. etransitivity; [apply pick_a; tt|]. reflexivity. Qed.
Lemma at1_cLi5_q e : cLi5_q (NumR e) (ofC e (RtoC 1)) = ofC e (RtoC (rq (103692775514336992633136548645703417, 10^35)%Z)).
Proof. unfold cLi5_q. cbv zeta. etransitivity; [apply pick_b; tt|]. val. Qed.
Lemma atm1_cLi5_q e : cLi5_q (NumR e) (ofC e (RtoC (-1))) = ofC e (RtoC (rq (-15, 1)%Z * rq (103692775514336992633136548645703417, 10^35)%Z / 16)).
Proof. unfold cLi5_q. cbv zeta. etransitivity; [apply pick_c; tt|]. val. Qed.
Theorem accR_cLi5_q e x : exists v, cLi5_q (NumR e) (ofC e (RtoC x)) = ofC e v /\ closeR 5 (1 / 10 ^ 34) v x.
Proof.
  destruct (axis_all 5 (T_cLi5_q_hd ++ spread T_cLi5_q_cs) T_cLi5_q_bf (rq T_cLi5_q_pi) (rq (0, 1)%Z) 1 (5 / 10 ^ 36) (75 / 10 ^ 37) (14 / 10 ^ 36) (7 / 10 ^ 35) (1 / 10 ^ 34) ltac:(lia) HU_cLi5_q HT_cLi5_q Hp_cLi5_q ltac:(lra) HR_cLi5_q ltac:(cbn [pow]; ring) ltac:(lra) ltac:(lra)) as (SPR & SP0 & SP1 & SPM1 & SPH).
  destruct (Req_dec x 0) as [->|N0]; [eexists; split; [apply at0_cLi5_q|exact SP0]|].
  destruct (Req_dec x 1) as [->|N1]; [eexists; split; [apply at1_cLi5_q|apply SP1; reflexivity]|].
  destruct (Req_dec x (-1)) as [->|N2].
  { eexists. split; [apply atm1_cLi5_q|]. apply (SPM1 _ (- (15 / 16))); [unfold T_cLi5_q_hd; cbn [app map hd]; replace (rq (-15, 1)%Z) with (-15) by (unfold rq; cbn [fst snd]; field); generalize (rq (103692775514336992633136548645703417, 10^35)%Z); intros; field|exact m1_5|interval]. }
  eexists. split; [apply ev_cLi5_q; right; unfold RtoC; cbn [fst]; repeat split; assumption|]. apply SPR; assumption.
Qed.
Lemma HU_cLi6_q : forall w, Cmod w <= 1 -> Cmod (Cminus (cpev (map rq (T_cLi6_q_hd ++ spread T_cLi6_q_cs)) w) (cpev (IG (zl DD bz) 6) w)) <= (70 / 10 ^ 37). Proof. intros w Hw; exact (useU 6 _ 70 37 w ltac:(lia) ltac:(lia) U_cLi6_q Hw). Qed.
Lemma HT_cLi6_q : forall u, Cmod u <= 11 / 10 -> Cmod (Cminus (cpev (map rq T_cLi6_q_bf) u) (cpev (zl DD (tl (qz 6))) u)) <= (25 / 10 ^ 37). Proof. intros u Hu; exact (useT 6 _ 25 37 u ltac:(lia) T_cLi6_q Hu). Qed.
Lemma Hp_cLi6_q : Rabs (rq T_cLi6_q_pi - PI) <= (5 / 10 ^ 36). Proof. unfold rq, T_cLi6_q_pi. cbn [fst snd]. interval with (i_prec 200). Qed.
Lemma HR_cLi6_q : Bd (5 / 10 ^ 36) (rlist 6 (rq T_cLi6_q_pi) (rq (0, 1)%Z)) (rlist 6 PI (PI * PI / 6)) <= (12 / 10 ^ 35). Proof. unfold T_cLi6_q_pi. numB. Qed.
Lemma at0_cLi6_q e : cLi6_q (NumR e) (ofC e (RtoC 0)) = ofC e (RtoC 0).
Proof. unfold cLi6_q. cbv zeta. etransitivity; [apply pick_a; tt|]. reflexivity. Qed.
Lemma at1_cLi6_q e : cLi6_q (NumR e) (ofC e (RtoC 1)) = ofC e (RtoC (rq (101734306198444913971451792979092053, 10^35)%Z)).
Proof. unfold cLi6_q. cbv zeta. etransitivity; [apply pick_b; tt|]. val. Qed.
Lemma atm1_cLi6_q e : cLi6_q (NumR e) (ofC e (RtoC (-1))) = ofC e (RtoC (rq (-31, 1)%Z * rq (101734306198444913971451792979092053, 10^35)%Z / 32)).
Proof. unfold cLi6_q. cbv zeta. etransitivity; [apply pick_c; tt|]. val. Qed.
Theorem accR_cLi6_q e x : exists v, cLi6_q (NumR e) (ofC e (RtoC x)) = ofC e v /\ closeR 6 (2 / 10 ^ 34) v x.
Proof.
  destruct (axis_all 6 (T_cLi6_q_hd ++ spread T_cLi6_q_cs) T_cLi6_q_bf (rq T_cLi6_q_pi) (rq (0, 1)%Z) (-1) (5 / 10 ^ 36) (70 / 10 ^ 37) (25 / 10 ^ 37) (12 / 10 ^ 35) (2 / 10 ^ 34) ltac:(lia) HU_cLi6_q HT_cLi6_q Hp_cLi6_q ltac:(lra) HR_cLi6_q ltac:(cbn [pow]; ring) ltac:(lra) ltac:(lra)) as (SPR & SP0 & SP1 & SPM1 & SPH).
  destruct (Req_dec x 0) as [->|N0]; [eexists; split; [apply at0_cLi6_q|exact SP0]|].
  destruct (Req_dec x 1) as [->|N1]; [eexists; split; [apply at1_cLi6_q|apply SP1; reflexivity]|].
  destruct (Req_dec x (-1)) as [->|N2].
  { eexists. split; [apply atm1_cLi6_q|]. apply (SPM1 _ (- (31 / 32))); [unfold T_cLi6_q_hd; cbn [app map hd]; replace (rq (-31, 1)%Z) with (-31) by (unfold rq; cbn [fst snd]; field); generalize (rq (101734306198444913971451792979092053, 10^35)%Z); intros; field|exact m1_6|interval]. }
  eexists. split; [apply ev_cLi6_q; right; unfold RtoC; cbn [fst]; repeat split; assumption|]. apply SPR; assumption.
Qed.
