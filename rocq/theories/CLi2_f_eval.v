(** * The Fortran function cdli2 in exact arithmetic, and the accuracy of the Fortran complex functions off the real axis *)
From Coq Require Import ZArith Reals List Bool Lra Lia Psatz.
From Coquelicot Require Import Coquelicot.
From Interval Require Import Tactic.
From Verif Require Import Num NumR Spec Eval_R Consts Cplx Ccalc CLi CLi_disc Cpoly CLi_unity CLi_T CLi_ref CLi_region Rest Model_LiR Model_LiC Model_F CLi_code CLi_eval CLi_dev CLi_rest CLi_acc CLi_inst CLi2_acc CLi2_inst CLi_c_eval CLi2_c_eval CLi_f_eval.
Import ListNotations.
Local Open Scope R_scope.

Definition T_f_cdli2_pi : Z * Z := (314159265358979324, 10^17)%Z.
Lemma f_cdli2_bf_eq e : f_cdli2_bf (NumR e) = Sq T_cLi2_d_bf. Proof. unfold f_cdli2_bf, Sq, T_cLi2_d_bf. cbn [map]. tabf. Qed.
Lemma f1p_eq (N : num) z : fst (f_cdlog1p N z) = clog1p N z.
Proof.
  unfold f_cdlog1p, clog1p. cbv zeta. destruct (eqb N (fst (cadd_rc N (lit N 1 0) z)) (lit N 1 0) && eqb N (snd (cadd_rc N (lit N 1 0) z)) (lit N 0 0))%bool; [reflexivity|].
  destruct (leb N (fst (cadd_rc N (lit N 1 0) z)) (lit N 0 0)); reflexivity.
Qed.
Lemma finv1p e (z : C) : z <> RtoC 0 -> z <> RtoC 1 -> copp (NumR e) (clog1p (NumR e) (copp (NumR e) (cdiv_rc (NumR e) (lit (NumR e) 1 0) (ofC e z)))) = ofC e (U (Cinv z)).
Proof.
  intros Z0 Z1. rewrite inv1 by exact Z0. apply opp1p. intros E. apply Z1. transitivity (Cmult z (Cinv z)); [rewrite E; ring|field; exact Z0].
Qed.
Lemma f2_rest e pi L : csub_cr (NumR e) (copp (NumR e) (cmul_rc (NumR e) (lit (NumR e) 5 (-1)) (cmul (NumR e) (ofC e L) (ofC e L)))) (Some (rq pi * rq pi / 6)) = ofC e (cpev (rlist 2 (rq pi) 0) L).
Proof.
  rewrite litneg, ofC_mul, ofC_mul_rc, ofC_opp, ofC_sub_cr. apply (f_equal (ofC e)). cbn [rlist cpev].
  replace (rq (5, 10 ^ 1)%Z) with (/ 2) by (unfold rq; cbn [fst snd]; change (10 ^ 1)%Z with 10%Z; field). rewrite !RtoC_opp. ring.
Qed.
Lemma Q_f_cdli2 e u : let N := NumR e in let u' := ofC e u in let u2 := cmul N u' u' in let u4 := cmul N u2 u2 in let c := Sq T_cLi2_d_bf in
  cadd N u' (cmul N u2 (cadd_rc N (aref N c 0) (cmul N u' (cadd_rc N (aref N c 1) (cmul N u2 (cadd N (cadd N (cadd_rc N (aref N c 2) (cmul_cr N u2 (aref N c 3))) (cmul N u4 (cadd_rc N (aref N c 4) (cmul_cr N u2 (aref N c 5))))) (cmul N (cmul N u4 u4) (cadd N (cadd_rc N (aref N c 6) (cmul_cr N u2 (aref N c 7))) (cmul N u4 (cadd_rc N (aref N c 8) (cmul_cr N u2 (aref N c 9))))))))))))
  = ofC e (cpev (map rq ((0, 1)%Z :: (1, 1)%Z :: T2 T_cLi2_d_bf)) u).
Proof. exact (Q_c_cli2_d e u). Qed.
(* src/fortran/Li2.f90 *)
Lemma ev_f_cdli2 e un z : snd z <> 0 -> f_cdli2 (NumR e) un (ofC e z) = (ofC e (c2val e (rq T_f_cdli2_pi) T_cLi2_d_bf z), ofC e z).
Proof.
  intros H. unfold f_cdli2, c2val. destruct (nonreal e _ H) as [ZN EQ]. pose proof (nonreal1 z H) as ZO. cbv zeta. rewrite EQ. rewrite f_cdli2_bf_eq. rewrite nrm. rewrite b2_eps, b2_half, b2_one, b2_two. rewrite ?f1p_eq.
  match goal with |- context [lit (NumR e) 314159265358979324 (Z.neg ?k)] => change (lit (NumR e) 314159265358979324 (Z.neg k)) with (Some (rq T_f_cdli2_pi)) end. rewrite b2_pi.
  pose proof (Q_f_cdli2 e) as QQ. cbv zeta in QQ.
  unfold Rltb, Rleb. destruct (Rlt_dec (Cmod z * Cmod z) e); [apply f_equal2; [apply b2_tiny|reflexivity]|]. destruct (Rle_dec (fst z) (/ 2)).
  - destruct (Rlt_dec 1 (Cmod z * Cmod z)); (apply f_equal2; [|reflexivity]).
    + rewrite finv1p by assumption. rewrite b2_log, QQ, f2_rest by exact H. apply sgm.
    + rewrite opp1p by assumption. rewrite QQ. apply sg1.
  - destruct (Rle_dec (Cmod z * Cmod z) (2 * fst z)); (apply f_equal2; [|reflexivity]).
    + rewrite b2_log1 by exact H. rewrite (ofC_log e z ZN), ofC_opp, QQ. rewrite ofC_mul, ofC_add_cr. apply sgm.
    + rewrite finv1p by assumption. rewrite b2_log, QQ, f2_rest by exact H. apply sgm.
Qed.
Theorem acc_f_cdli2 un z : snd z <> 0 -> exists v, f_cdli2 (NumR eps_d) un (ofC eps_d z) = (ofC eps_d v, ofC eps_d z) /\ close 2 (27 / 10 ^ 17) v z.
Proof.
  intros H. eexists. split; [apply ev_f_cdli2, H|]. apply (c2val_close T_cLi2_d_bf eps_d (rq T_f_cdli2_pi) (8 / 10 ^ 17) (66 / 10 ^ 18) (5 / 10 ^ 17)).
  - intros u Hu. exact (useT 2 _ 8 17 u ltac:(lia) T_cLi2_d Hu).
  - intros w Hw. exact (useN _ 66 18 w ltac:(lia) N_cLi2_d Hw).
  - unfold rq, T_f_cdli2_pi. cbn [fst snd]. interval with (i_prec 200).
  - unfold eps_d. interval with (i_prec 200).
  - interval with (i_prec 200).
  - interval with (i_prec 200).
  - unfold eps_d. interval with (i_prec 200).
  - exact H.
Qed.

(** ** the remainder with its own literals for pi^2, pi^4, pi^6 *)
Lemma lmz_le p z d : Rabs (p - PI) <= d -> snd z <> 0 -> d <= 1 -> Cmod (lmz p z) <= 1 + Cmod (Clog (Copp z)).
Proof.
  intros Hp H Hd. rewrite CLi_rest.Clog_neg by exact H. pose proof (lmz_near p z d Hp) as D.
  replace (lmz p z) with (Cplus (Cminus (lmz p z) (lmz PI z)) (lmz PI z)) by ring. eapply Rle_trans; [apply Cmod_triangle|]. lra.
Qed.
Lemma close_shift n Ul Tl p z2 rl sg z eps c d : (3 <= n <= 6)%nat -> snd z <> 0 -> Rabs (p - PI) <= d -> d <= 1 -> 0 <= c ->
  length rl = length (rlist n p z2) -> Bd 0 rl (rlist n p z2) <= c -> close n eps (cval n Ul Tl p z2 sg z) z -> close n (eps + c) (cvalL n Ul Tl p rl sg z) z.
Proof.
  intros Hn H Hp Hd Hc Hl HB [A B]. unfold cval, cvalL in *. pose proof (Cmod_ge_0 z) as Z0.
  assert (M0 : 0 <= (1 + Cmod (Clog (Copp z))) ^ n) by (apply pow_le; pose proof (Cmod_ge_0 (Clog (Copp z))); lra).
  destruct (Rlt_dec (Cmod (Clog z) * Cmod (Clog z)) 1) as [E1|E1]; [|destruct (Rle_dec (Cmod z) 1) as [E2|E2]].
  1,2: split; intros HZ; [specialize (A HZ)|specialize (B HZ)]; eapply Rle_trans; [eassumption|apply Rmult_le_compat_r; [assumption|lra]|eassumption|apply Rmult_le_compat_r; [assumption|lra]].
  split; intros HZ; [lra|]. specialize (B HZ). rewrite restq_list in B by exact Hn. set (L := lmz p z) in *. set (T := Cmult (RtoC sg) _) in *.
  pose proof (lmz_le p z d Hp H Hd) as LL. fold L in LL.
  assert (D : Cmod (Cminus (cpev rl L) (cpev (rlist n p z2) L)) <= Bd 0 rl (rlist n p z2) * (1 + Cmod (Clog (Copp z))) ^ n).
  { apply Bd_ok; try assumption; try lra.
    - pose proof (Cmod_ge_0 (Clog (Copp z))). lra.
    - rewrite Hl. destruct n as [|[|[|[|[|[|[|n]]]]]]]; cbn [rlist length]; lia.
    - replace (Cminus L L) with (RtoC 0) by ring. rewrite Cmod_0. lra. }
  replace (Cminus (Cplus (cpev rl L) T) (CLi n z)) with (Cplus (Cminus (Cplus (cpev (rlist n p z2) L) T) (CLi n z)) (Cminus (cpev rl L) (cpev (rlist n p z2) L))) by ring.
  eapply Rle_trans; [apply Cmod_triangle|]. rewrite Rmult_plus_distr_r. apply Rplus_le_compat; [exact B|]. eapply Rle_trans; [exact D|]. apply Rmult_le_compat_r; assumption.
Qed.
Lemma ofC_injf e (v w : C) : ofC e v = ofC e w -> v = w.
Proof. destruct v, w. unfold ofC. cbn [fst snd]. intros H. injection H as -> ->. reflexivity. Qed.
Theorem acc_f_cdli3 e z : snd z <> 0 -> exists v, f_cdli3 (NumR e) (ofC e z) = (ofC e v, ofC e z) /\ close 3 (11 / 10 ^ 15) v z.
Proof.
  intros H. eexists. split; [apply ev_f_cdli3; [exact H|left; left; exact H]|]. destruct (acc_cLi3_d e z H) as (v & E & CL). rewrite ev_cLi3_d in E by exact H. apply ofC_injf in E. subst v.
  replace (11 / 10 ^ 15) with (11 / 10 ^ 15 + 0) by ring. eapply close_shift with (d := 5 / 10 ^ 16); [lia|exact H| | | | | |exact CL]; try lra; try reflexivity.
  - unfold rq, T_cLi3_d_pi. cbn [fst snd]. interval with (i_prec 200).
  - unfold RL_f_cdli3. cbn [rlist Bd Sabs]. rewrite !Rminus_eq_0, Rabs_R0. lra.
Qed.
Theorem acc_f_cdli4 e z : snd z <> 0 -> exists v, f_cdli4 (NumR e) (ofC e z) = (ofC e v, ofC e z) /\ close 4 (9 / 10 ^ 15) v z.
Proof.
  intros H. eexists. split; [apply ev_f_cdli4; [exact H|left; left; exact H]|]. destruct (acc_cLi4_d e z H) as (v & E & CL). rewrite ev_cLi4_d in E by exact H. apply ofC_injf in E. subst v.
  replace (9 / 10 ^ 15) with (8 / 10 ^ 15 + 1 / 10 ^ 15) by lra. eapply close_shift with (d := 5 / 10 ^ 16); [lia|exact H| | | | | |exact CL]; try lra; try reflexivity.
  - unfold rq, T_cLi4_d_pi. cbn [fst snd]. interval with (i_prec 200).
  - unfold RL_f_cdli4, T_cLi4_d_pi, rq. cbn [rlist Bd Sabs fst snd]. interval with (i_prec 200).
Qed.
Theorem acc_f_cdli5 e z : snd z <> 0 -> exists v, f_cdli5 (NumR e) (ofC e z) = (ofC e v, ofC e z) /\ close 5 (2 / 10 ^ 15) v z.
Proof.
  intros H. eexists. split; [apply ev_f_cdli5; [left; exact H|left; left; exact H]|]. destruct (acc_cLi5_d e z H) as (v & E & CL). rewrite ev_cLi5_d in E by (left; exact H). apply ofC_injf in E. subst v.
  replace (2 / 10 ^ 15) with (1 / 10 ^ 15 + 1 / 10 ^ 15) by lra. eapply close_shift with (d := 5 / 10 ^ 16); [lia|exact H| | | | | |exact CL]; try lra; try reflexivity.
  - unfold rq, T_cLi5_d_pi. cbn [fst snd]. interval with (i_prec 200).
  - unfold RL_f_cdli5, T_cLi5_d_pi, rq. cbn [rlist Bd Sabs fst snd]. interval with (i_prec 200).
Qed.
Theorem acc_f_cdli6 e z : snd z <> 0 -> exists v, f_cdli6 (NumR e) (ofC e z) = (ofC e v, ofC e z) /\ close 6 (4 / 10 ^ 15) v z.
Proof.
  intros H. eexists. split; [apply ev_f_cdli6; [left; exact H|left; left; exact H]|]. destruct (acc_cLi6_d e z H) as (v & E & CL). rewrite ev_cLi6_d in E by (left; exact H). apply ofC_injf in E. subst v.
  replace (4 / 10 ^ 15) with (3 / 10 ^ 15 + 1 / 10 ^ 15) by lra. eapply close_shift with (d := 5 / 10 ^ 16); [lia|exact H| | | | | |exact CL]; try lra; try reflexivity.
  - unfold rq, T_cLi6_d_pi. cbn [fst snd]. interval with (i_prec 200).
  - unfold RL_f_cdli6, T_cLi6_d_pi, rq. cbn [rlist Bd Sabs fst snd]. interval with (i_prec 200).
Qed.
