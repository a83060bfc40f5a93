#!/usr/bin/env python3
# generates rocq/theories/CLi2_inst.v : the four complex dilogarithms in exact arithmetic
src=open('/verif/tools/gen_cli_eval.py').read().split("P1=lambda")[0]
exec(src)
o=['''(** * The complex dilogarithms in exact arithmetic, four precisions (generated by tools/gen_cli2_inst.py) *)
From Coq Require Import ZArith Reals List Bool Lra Lia Psatz.
From Coquelicot Require Import Coquelicot.
From Interval Require Import Tactic.
From Verif Require Import Num NumR Spec Eval_R Consts Cplx Ccalc CLi Cpoly CLi_unity CLi_T CLi_ref CLi_region Rest Model_LiR Model_LiC CLi_code CLi_eval CLi_dev CLi_rest CLi_acc CLi_inst CLi2_acc.
Import ListNotations.
Local Open Scope R_scope.
Section E.
Variable e : R.
Notation N := (NumR e).
Lemma b2_eps z : ltb N (cnorm N (ofC e z)) (eps N) = Rltb (Cmod z * Cmod z) e. Proof. rewrite ofC_norm. reflexivity. Qed.
Lemma b2_half z : leb N (fst (ofC e z)) (lit N 5 (-1)) = Rleb (fst z) (/ 2).
Proof. rewrite litneg. unfold rq. cbn [fst snd ofC]. change (10 ^ 1)%Z with 10%Z. replace (5 / 10) with (/ 2) by field. reflexivity. Qed.
Lemma b2_one z : ltb N (lit N 1 0) (cnorm N (ofC e z)) = Rltb 1 (Cmod z * Cmod z). Proof. rewrite ofC_norm, lit_int. reflexivity. Qed.
Lemma b2_two z : leb N (cnorm N (ofC e z)) (mul N (lit N 2 0) (fst (ofC e z))) = Rleb (Cmod z * Cmod z) (2 * fst z). Proof. rewrite ofC_norm, lit_int. reflexivity. Qed.
Lemma b2_pi pi : div N (mul N (Some (rq pi)) (Some (rq pi))) (lit N 6 0) = Some (rq pi * rq pi / 6).
Proof. rewrite lit_int, omul. cbn [div NumR]. rewrite odiv_some by lra. reflexivity. Qed.
Lemma b2_log (z : C) : snd z <> 0 -> clog N (copp N (ofC e z)) = ofC e (Clog (Copp z)).
Proof. intros H. rewrite ofC_opp. apply ofC_log. intros E. apply H. apply (f_equal snd) in E. cbn in E. lra. Qed.
Lemma b2_log1 (z : C) : snd z <> 0 -> clog1p N (copp N (ofC e z)) = ofC e (Clog (Cminus (RtoC 1) z)).
Proof. intros H. rewrite ofC_opp. rewrite clog1p_ok; [reflexivity|]. intros E. apply H. apply (f_equal snd) in E. cbn in E. lra. Qed.
Lemma b2_Q (bf : list (Z * Z)) u : (3 <= length bf)%nat ->
  cadd N (ofC e u) (cmul N (cmul N (ofC e u) (ofC e u)) (cadd_rc N (Num.aref N (Sq bf) 0) (cmul N (ofC e u) (chorner N 1 (cmul N (ofC e u) (ofC e u)) (Sq bf)))))
  = ofC e (cpev (map rq ((0, 1)%Z :: (1, 1)%Z :: T2 bf)) u).
Proof.
  intros H. destruct bf as [|b0 bf]; [cbn in H; lia|]. cbn [length] in H. rewrite ofC_mul. rewrite chornerk_ok by (cbn [length]; lia). cbn [skipn].
  change (Num.aref N (Sq (b0 :: bf)) 0) with (Some (rq b0)). evs. apply (f_equal (ofC e)). unfold T2. cbn [hd tl map cpev]. rewrite spread_ok, rq0, rq1. ring.
Qed.
Lemma b2_rest pi L : csub_cr N (cmul N (cmul_rc N (lit N (-5) (-1)) (ofC e L)) (ofC e L)) (Some (rq pi * rq pi / 6)) = ofC e (cpev (rlist 2 (rq pi) 0) L).
Proof.
  rewrite litneg. evs. apply (f_equal (ofC e)). cbn [rlist cpev]. replace (rq (-5, 10 ^ 1)%Z) with (- / 2) by (unfold rq; cbn [fst snd]; change (10 ^ 1)%Z with 10%Z; field). rewrite !RtoC_opp. ring.
Qed.
Lemma b2_tiny z : cmul N (ofC e z) (cadd_rc N (lit N 1 0) (cmul_rc N (lit N 25 (-2)) (ofC e z))) = ofC e (Cmult z (Cplus (RtoC 1) (Cmult (RtoC (/ 4)) z))).
Proof. evs. rewrite rq1. replace (rq (25, 10 ^ 2)%Z) with (/ 4) by (unfold rq; cbn [fst snd]; change (10 ^ 2)%Z with 100%Z; field). reflexivity. Qed.
Lemma sg1 u : cadd N (cmul_rc N (lit N 1 0) (ofC e u)) (lit N 0 0, lit N 0 0) = ofC e u.
Proof. rewrite !lit_int. rewrite ofC_mul_rc. change (@pair (car N) (car N) (Some 0) (Some 0)) with (ofC e (RtoC 0)). rewrite ofC_add. apply (f_equal (ofC e)). ring. Qed.
Lemma sgm u r : cadd N (cmul_rc N (lit N (-1) 0) (ofC e u)) (ofC e r) = ofC e (Cplus (Copp u) r).
Proof. rewrite lit_int, ofC_mul_rc, ofC_add. apply (f_equal (ofC e)). rewrite Cm1. ring. Qed.
End E.
''']
P=o.append
K={'f':((21,8),(19,8),(4,9),(4,9),(5,7)),'d':((8,17),(66,18),(4,17),(5,17),(27,17)),'l':((21,19),(19,19),(5,36),(6,36),(5,18)),'q':((8,37),(7,37),(5,36),(6,36),(3,35))}
for p in 'fdlq':
    F='cLi2_'+p; f=fun(F); bf=table(F+'_bf'); pi=let(f,'PI'); t,nn,d,cp,ep=K[p]
    q=lambda x:'(%d / 10 ^ %d)'%x
    P('''(* src/cpp/Li2.cpp: the table and constant of Model_LiC.%(F)s *)
Definition T_%(F)s_bf : list (Z * Z) := %(bf)s.
Definition T_%(F)s_pi : Z * Z := (%(p0)d, %(p1)s)%%Z.
Lemma %(F)s_bf_eq e : %(F)s_bf (NumR e) = Sq T_%(F)s_bf. Proof. unfold %(F)s_bf, Sq, T_%(F)s_bf. cbn [map]. tab. Qed.
Lemma ev_%(F)s e z : snd z <> 0 -> %(F)s (NumR e) (ofC e z) = ofC e (c2val e (rq T_%(F)s_pi) T_%(F)s_bf z).
Proof.
  intros H. unfold %(F)s, c2val. destruct (nonreal e _ H) as [ZN EQ]. pose proof (nonreal1 z H) as ZO. cbv zeta. rewrite EQ. rewrite %(F)s_bf_eq. rewrite b2_eps, b2_half, b2_one, b2_two. rewrite (litneg e %(p0)d). fold T_%(F)s_pi. rewrite b2_pi.
  assert (LB : (3 <= length T_%(F)s_bf)%%nat) by (unfold T_%(F)s_bf; cbn [length]; lia).
  unfold Rltb, Rleb. destruct (Rlt_dec (Cmod z * Cmod z) e); [apply b2_tiny|]. destruct (Rle_dec (fst z) (/ 2)).
  - destruct (Rlt_dec 1 (Cmod z * Cmod z)).
    + rewrite inv1p, b2_log, b2_Q, b2_rest by first [exact H|exact ZN|exact ZO|exact LB]. apply sgm.
    + rewrite opp1p, b2_Q by first [exact H|exact ZN|exact ZO|exact LB]. apply sg1.
  - destruct (Rle_dec (Cmod z * Cmod z) (2 * fst z)).
    + rewrite (ofC_log e z ZN), b2_log1, ofC_opp, b2_Q by first [exact H|exact ZN|exact ZO|exact LB]. rewrite ofC_mul, ofC_add_cr. apply sgm.
    + rewrite inv1p, b2_log, b2_Q, b2_rest by first [exact H|exact ZN|exact ZO|exact LB]. apply sgm.
Qed.
Lemma T_%(F)s : chkD 11 10 ((1, 1)%%Z :: T2 T_%(F)s_bf) (tl (qz 2)) 0 %(t0)d %(t1)d = true. Proof. vm_compute. reflexivity. Qed.
Lemma N_%(F)s : chkD 11 10 (T2n T_%(F)s_bf) (ikz 2 bz) 1 %(n0)d %(n1)d = true. Proof. vm_compute. reflexivity. Qed.
Theorem acc_%(F)s z : snd z <> 0 -> exists v, %(F)s (NumR eps_%(p)s) (ofC eps_%(p)s z) = ofC eps_%(p)s v /\\ close 2 %(ep)s v z.
Proof.
  intros H. eexists. split; [apply ev_%(F)s, H|]. apply (c2val_close T_%(F)s_bf eps_%(p)s (rq T_%(F)s_pi) %(tq)s %(nq)s %(cpq)s).
  - intros u Hu. exact (useT 2 _ %(t0)d %(t1)d u ltac:(lia) T_%(F)s Hu).
  - intros w Hw. exact (useN _ %(n0)d %(n1)d w ltac:(lia) N_%(F)s Hw).
  - unfold rq, T_%(F)s_pi. cbn [fst snd]. interval with (i_prec 200).
  - unfold eps_%(p)s. interval with (i_prec 200).
  - interval with (i_prec 200).
  - interval with (i_prec 200).
  - unfold eps_%(p)s. interval with (i_prec 200).
  - exact H.
Qed.'''%dict(F=F,bf=lst(bf),p0=pi[0],p1=pi[1],p=p,t0=t[0],t1=t[1],n0=nn[0],n1=nn[1],ep=q(ep),tq=q(t),nq=q(nn),cpq=q(cp)))
print('\n'.join(o))
