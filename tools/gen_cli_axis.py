#!/usr/bin/env python3
# generates rocq/theories/CLi_axis_inst.v : complex Li3..Li6 on the real axis in exact arithmetic (the ten functions that do not delegate to the real code there)
import re
src=open('/verif/tools/gen_cli_inst.py').read(); exec(src[:src.index('import re')])
ev=open('/verif/rocq/theories/CLi_eval.v').read()
lc=open('/verif/rocq/theories/Model_LiC.v').read()
o=['''(** * Complex Li3 .. Li6 on the real axis in exact arithmetic (generated by tools/gen_cli_axis.py) *)
From Coq Require Import ZArith Reals List Bool Lra Lia Psatz.
From Coquelicot Require Import Coquelicot.
From Interval Require Import Tactic.
From Verif Require Import Num NumR Spec Eval_R Consts Cplx Ccalc CLi Cpoly CLi_unity CLi_T CLi_ref Polylog Polylog_eqs Rest Model_LiC CLi_code CLi_eval CLi_dev CLi_rest CLi_acc CLi_inst CLi_axis CLi_axis2.
Import ListNotations.
Local Open Scope R_scope.
Lemma m1_3 : ReLi 3 (-1) = rq (-75, 10 ^ 2)%Z * ReLi 3 1. Proof. pose proof (ReLi_at_m1 3 ltac:(lia)). unfold rq. cbn [fst snd]. change (10 ^ 2)%Z with 100%Z. lra. Qed.
Lemma m1_5 : ReLi 5 (-1) = - (15 / 16) * ReLi 5 1. Proof. pose proof (ReLi_at_m1 5 ltac:(lia)). lra. Qed.
Lemma m1_6 : ReLi 6 (-1) = - (31 / 32) * ReLi 6 1. Proof. pose proof (ReLi_at_m1 6 ltac:(lia)). lra. Qed.
Ltac val := unfold ofC, RtoC; cbn [fst snd]; repeat first [rewrite lit0 | rewrite litneg | rewrite omul | rewrite odivq by discriminate]; reflexivity.''']

for F,(t,u,d,r,e) in C.items():
    n=int(F[3]); p=F[-1]
    if p=='d' and n<=4: continue
    m=re.search(r'Lemma ev_%s e z : .*\n.*\(rq T_%s_pi\) (\(rq .*?%%Z\)) (\S+) z\)\.'%(F,F),ev); z2,sg=m[1],m[2]
    hd=re.search(r'Definition T_%s_hd : list \(Z \* Z\) := \[(\(.*?\))'%F,ev)[1]+'%Z'
    q=lambda x:'(%d / 10 ^ %d)'%x
    D=dict(F=F,n=n,cu=q(u),ct=q(t),cd=q(d),cr=q(r),ep=q(e),sg=sg,z2=z2,hd=hd,
      hU='intros w Hw; exact (useU %d _ %d %d w ltac:(lia) ltac:(lia) U_%s Hw)'%(n,u[0],u[1],F),hT='intros u Hu; exact (useT %d _ %d %d u ltac:(lia) T_%s Hu)'%(n,t[0],t[1],F),
      vm={3:'rq (-75, 10 ^ 2)%%Z * rq %s'%hd,4:'rq (-7, 1)%%Z * (rq T_%s_pi * rq T_%s_pi * (rq T_%s_pi * rq T_%s_pi)) / 720'%(F,F,F,F),5:'rq (-15, 1)%%Z * rq %s / 16'%hd,6:'rq (-31, 1)%%Z * rq %s / 32'%hd}[n],
      m1={3:'apply (SPM1 _ (rq (-75, 10 ^ 2)%Z)); [reflexivity|exact m1_3|unfold rq; cbn [fst snd]; interval]',
        5:'apply (SPM1 _ (- (15 / 16))); [unfold T_%s_hd; cbn [app map hd]; replace (rq (-15, 1)%%Z) with (-15) by (unfold rq; cbn [fst snd]; field); generalize (rq %s); intros; field|exact m1_5|interval]'%(F,hd),
        6:'apply (SPM1 _ (- (31 / 32))); [unfold T_%s_hd; cbn [app map hd]; replace (rq (-31, 1)%%Z) with (-31) by (unfold rq; cbn [fst snd]; field); generalize (rq %s); intros; field|exact m1_6|interval]'%(F,hd),
        4:'apply atx; [lra|]. rewrite eta4, (Rabs_left (-1)) by lra. unfold rq, T_%s_pi. cbn [fst snd]. interval with (i_prec 200)'%F}[n])
    o.append("""Lemma HU_%(F)s : forall w, Cmod w <= 1 -> Cmod (Cminus (cpev (map rq (T_%(F)s_hd ++ spread T_%(F)s_cs)) w) (cpev (IG (zl DD bz) %(n)d) w)) <= %(cu)s. Proof. %(hU)s. Qed.
Lemma HT_%(F)s : forall u, Cmod u <= 11 / 10 -> Cmod (Cminus (cpev (map rq T_%(F)s_bf) u) (cpev (zl DD (tl (qz %(n)d))) u)) <= %(ct)s. Proof. %(hT)s. Qed.
Lemma Hp_%(F)s : Rabs (rq T_%(F)s_pi - PI) <= %(cd)s. Proof. unfold rq, T_%(F)s_pi. cbn [fst snd]. interval with (i_prec 200). Qed.
Lemma HR_%(F)s : Bd %(cd)s (rlist %(n)d (rq T_%(F)s_pi) %(z2)s) (rlist %(n)d PI (PI * PI / 6)) <= %(cr)s. Proof. unfold T_%(F)s_pi. numB. Qed.
Lemma at0_%(F)s e : %(F)s (NumR e) (ofC e (RtoC 0)) = ofC e (RtoC 0).
Proof. unfold %(F)s. cbv zeta. etransitivity; [apply pick_a; tt|]. reflexivity. Qed.
Lemma at1_%(F)s e : %(F)s (NumR e) (ofC e (RtoC 1)) = ofC e (RtoC (rq %(hd)s)).
Proof. unfold %(F)s. cbv zeta. etransitivity; [apply pick_b; tt|]. val. Qed.
Lemma atm1_%(F)s e : %(F)s (NumR e) (ofC e (RtoC (-1))) = ofC e (RtoC (%(vm)s)).
Proof. unfold %(F)s. cbv zeta. etransitivity; [apply pick_c; tt|]. val. Qed."""%D)
    if n==3:
        hv=re.search(r'rz \(lit N 5 \(-1\)\) then\s+\(lit N (\d+) \(-36\), iz\)',lc[lc.index('Definition %s (z'%F):])[1]
        o.append("""Lemma ath_%s e : %s (NumR e) (ofC e (RtoC (/ 2))) = ofC e (RtoC (rq (%s, 10 ^ 36)%%Z)).
Proof. unfold %s. cbv zeta. etransitivity; [apply pick_d; tt|]. val. Qed."""%(F,F,hv,F))
        D['half']="""  destruct (Req_dec x (/ 2)) as [->|N3].
  { eexists. split; [apply ath_%s|]. apply SPH. unfold T_%s_bf, rq. cbn [map fold_right fst snd]. interval with (i_prec 200). }\n"""%(F,F)
    else: D['half']=''
    o.append("""Theorem accR_%(F)s e x : exists v, %(F)s (NumR e) (ofC e (RtoC x)) = ofC e v /\\ closeR %(n)d %(ep)s v x.
Proof.
  destruct (axis_all %(n)d (T_%(F)s_hd ++ spread T_%(F)s_cs) T_%(F)s_bf (rq T_%(F)s_pi) %(z2)s %(sg)s %(cd)s %(cu)s %(ct)s %(cr)s %(ep)s ltac:(lia) HU_%(F)s HT_%(F)s Hp_%(F)s ltac:(lra) HR_%(F)s ltac:(cbn [pow]; ring) ltac:(lra) ltac:(lra)) as (SPR & SP0 & SP1 & SPM1 & SPH).
  destruct (Req_dec x 0) as [->|N0]; [eexists; split; [apply at0_%(F)s|exact SP0]|].
  destruct (Req_dec x 1) as [->|N1]; [eexists; split; [apply at1_%(F)s|apply SP1; reflexivity]|].
  destruct (Req_dec x (-1)) as [->|N2].
  { eexists. split; [apply atm1_%(F)s|]. %(m1)s. }
%(half)s  eexists. split; [apply ev_%(F)s; right; unfold RtoC; cbn [fst]; repeat split; assumption|]. apply SPR; assumption.
Qed."""%D)
print('\n'.join(o))
