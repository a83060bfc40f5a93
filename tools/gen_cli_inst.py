#!/usr/bin/env python3
# generates rocq/theories/CLi_inst.v : accuracy of each complex Li3..Li6 in exact arithmetic
# per function: T bound (c,k), U bound (c,k), |p-pi| bound, remainder bound, eps
C={'cLi3_d':((51,16),(13,17),(4,17),(5,16),(11,15)),
   'cLi4_d':((37,16),(29,18),(4,17),(5,16),(8,15)),
   'cLi5_d':((21,17),(52,18),(4,17),(5,16),(1,15)),
   'cLi6_d':((75,17),(14,17),(4,17),(9,16),(3,15)),
   'cLi3_l':((44,19),(25,21),(5,36),(1,34),(9,18)),
   'cLi4_l':((22,19),(62,21),(5,36),(1,34),(45,19)),
   'cLi5_l':((87,19),(19,20),(5,36),(1,34),(18,18)),
   'cLi6_l':((18,19),(7,19),(5,36),(1,34),(4,18)),
   'cLi3_q':((83,37),(36,37),(5,36),(7,35),(1,34)),
   'cLi4_q':((18,36),(6,36),(5,36),(6,35),(1,34)),
   'cLi5_q':((14,36),(75,37),(5,36),(7,35),(1,34)),
   'cLi6_q':((25,37),(70,37),(5,36),(12,35),(2,34))}
import re
ev=open('/verif/rocq/theories/CLi_eval.v').read()
o=['''(** * Accuracy of each complex Li3 .. Li6 in exact arithmetic (generated by tools/gen_cli_inst.py) *)
From Coq Require Import ZArith Reals List Bool Lra Lia Psatz.
From Coquelicot Require Import Coquelicot.
From Interval Require Import Tactic.
From Verif Require Import Num NumR Spec Eval_R Consts Cplx Ccalc CLi Cpoly CLi_unity CLi_T CLi_ref Rest Model_LiC CLi_code CLi_eval CLi_dev CLi_rest CLi_acc.
Import ListNotations.
Local Open Scope R_scope.
Lemma rel0 z : rel 0 (zl DD z) z.
Proof. pose proof DDpos as D0. unfold rel, zl. induction z as [|c l IH]; [constructor|]. cbn [map]. constructor; [|exact IH]. rewrite Rminus_eq_0, Rabs_R0. unfold Rdiv. rewrite Rmult_0_l. lra. Qed.
Lemma useT n l c k u : (0 <= k)%Z -> chkD 11 10 l (tl (qz n)) 0 c k = true -> Cmod u <= 11 / 10 -> Cmod (Cminus (cpev (map rq l) u) (cpev (zl DD (tl (qz n))) u)) <= IZR c / 10 ^ Z.to_nat k.
Proof. intros Hk H Hu. apply (chkD_ok 11 10 l _ (tl (qz n)) 0 c k); [lia|lia|lia|exact Hk|apply rel0|exact H|exact Hu]. Qed.
Lemma useU n l c k w : (3 <= n <= 6)%nat -> (0 <= k)%Z -> chkD 1 1 l (igl n) (EZ + Z.of_nat n) c k = true -> Cmod w <= 1 -> Cmod (Cminus (cpev (map rq l) w) (cpev (IG (zl DD bz) n) w)) <= IZR c / 10 ^ Z.to_nat k.
Proof.
  intros Hn Hk H Hw. apply (chkD_ok 1 1 l _ (igl n) (EZ + Z.of_nat n) c k); [apply Z.add_nonneg_nonneg; [discriminate|lia]|lia|lia|exact Hk|rewrite igl_ok by exact Hn; apply igz_rel; lia|exact H|lra].
Qed.
Ltac numB := unfold Bd, Sabs, rlist, rq; cbn [fst snd]; interval with (i_prec 200).''']
for F,(t,u,d,r,e) in C.items():
    n=int(F[3]); p=F[-1]
    m=re.search(r'Lemma ev_%s e z : .*\n.*\(rq T_%s_pi\) (\(rq .*?%%Z\)) (\S+) z\)\.'%(F,F),ev); z2,sg=m[1],m[2]
    q=lambda x:'(%d / 10 ^ %d)'%x
    o.append('''Lemma T_%s : chkD 11 10 T_%s_bf (tl (qz %d)) 0 %d %d = true. Proof. vm_compute. reflexivity. Qed.
Lemma U_%s : chkD 1 1 (T_%s_hd ++ spread T_%s_cs) (igl %d) (EZ + Z.of_nat %d) %d %d = true. Proof. vm_compute. reflexivity. Qed.
Theorem acc_%s e z : snd z <> 0 -> exists v, %s (NumR e) (ofC e z) = ofC e v /\\ close %d %s v z.
Proof.
  intros H. eexists. split; [apply ev_%s, %s|].
  apply (cval_close %d _ _ (rq T_%s_pi) %s %s %s %s %s %s).
  - lia.
  - intros w Hw. exact (useU %d _ %d %d w ltac:(lia) ltac:(lia) U_%s Hw).
  - intros u Hu. exact (useT %d _ %d %d u ltac:(lia) T_%s Hu).
  - unfold rq, T_%s_pi. cbn [fst snd]. interval with (i_prec 200).
  - lra.
  - unfold T_%s_pi. numB.
  - cbn [pow]. ring.
  - lra.
  - lra.
  - exact H.
Qed.'''%(F,F,n,t[0],t[1],F,F,F,n,n,u[0],u[1],F,F,n,q(e),F,'H' if F in('cLi3_d','cLi4_d') else '(or_introl H)',n,F,z2,sg,q(d),q(u),q(t),q(r),n,u[0],u[1],F,n,t[0],t[1],F,F,F))
print('\n'.join(o))
