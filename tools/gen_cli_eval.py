#!/usr/bin/env python3
# generates rocq/theories/CLi_eval.v : values of cLi3..cLi6 (all precisions) in exact arithmetic
import re
s=open('/verif/rocq/theories/Model_LiC.v').read()
def table(name):
    i=s.index('Definition %s : list N := ['%name); j=s.index('].',i)
    body=s[s.index('[',i)+1:j]; out=[]
    for it in body.split(';'):
        it=' '.join(it.split())
        m=re.fullmatch(r'lit N (\(?-?\d+\)?) (\(?-?\d+\)?)',it)
        if m:
            a=int(m[1].strip('()')); k=int(m[2].strip('()')); assert k<=0
            out.append((a, '1' if k==0 else '10^%d'%-k)); continue
        m=re.fullmatch(r'\(lit N (\(?-?\d+\)?) 0\) / \(lit N (\d+) 0\)',it)
        assert m,it
        out.append((int(m[1].strip('()')),m[2]))
    return out
def fun(name):
    i=s.index('Definition %s (z'%name); j=s.find('\n(*',i); return s[i:j] if j>0 else s[i:]
def let(f,v):
    m=re.search(r'let %s := lit N (\d+) \(-(\d+)\) in'%v,f); return (int(m[1]),'10^%s'%m[2])
def lst(l): return '['+'; '.join('(%d, %s)'%t for t in l)+']%Z'
o=[]
P=o.append
P('''(** * Values of the complex Li3 .. Li6 in exact arithmetic (generated by tools/gen_cli_eval.py) *)
From Coq Require Import ZArith Reals List Bool Lra Lia Psatz.
From Coquelicot Require Import Coquelicot.
From Verif Require Import Num NumR Spec Eval_R Proof_Horner Cplx Ccalc CLi CLi_disc Cpoly CLi_unity CLi_T CLi_region Clausen Rest Model_LiR Model_LiC CLi_code.
Import ListNotations.
Local Open Scope R_scope.

(** the logarithmic coefficient of the series at unity, as the code writes it *)
Definition Lc (n : nat) (w : C) : C := match n with
  | 3 => Cmult (RtoC (rq (25, 10 ^ 2)%Z)) (Cminus (RtoC (rq (3, 1)%Z)) (Cmult (RtoC (rq (2, 1)%Z)) (Clog (Copp w))))
  | 4 => Cmult (RtoC (/ IZR 6)) (Cminus (RtoC (rq (11, 6)%Z)) (Clog (Copp w)))
  | 5 => Cmult (RtoC (/ IZR 24)) (Cminus (RtoC (rq (25, 12)%Z)) (Clog (Copp w)))
  | _ => Cmult (RtoC (/ IZR 120)) (Cminus (RtoC (rq (137, 60)%Z)) (Clog (Copp w)))
  end%nat.
Lemma Lm_Lc n w : (3 <= n <= 6)%nat -> Lm n w = Cmult (Cpow w (n - 1)) (Lc n w).
Proof.
  intros H. assert (C3 : n = 3%nat \\/ n = 4%nat \\/ n = 5%nat \\/ n = 6%nat) by lia.
  destruct C3 as [->|[->|[->| ->]]]; unfold Lm, Lc, rq; cbn [Nat.sub fst snd];
  [replace (inv_fact 2) with (/ 2) by (unfold inv_fact; cbn; field); replace (Hm 2) with (3 / 2) by (cbn; field)
  |replace (inv_fact 3) with (/ 6) by (unfold inv_fact; cbn; field); replace (Hm 3) with (11 / 6) by (cbn; field)
  |replace (inv_fact 4) with (/ 24) by (unfold inv_fact; cbn; field); replace (Hm 4) with (25 / 12) by (cbn; field)
  |replace (inv_fact 5) with (/ 120) by (unfold inv_fact; cbn; field); replace (Hm 5) with (137 / 60) by (cbn; field)];
  match goal with |- context [Cpow w ?k] => generalize (Cpow w k) end; intros p; generalize (Clog (Copp w)); intros l; try ring.
  change (10 ^ 2)%Z with 100%Z. unfold Cminus, Cplus, Copp, Cmult, RtoC. cbn [fst snd]. f_equal; field.
Qed.
(** the inversion remainder, as the code writes it (p: the literal for pi, z2: the literal for zeta(2)) *)
Definition restq (n : nat) (p z2 : R) (L : C) : C := let p2 := p * p in let p4 := p2 * p2 in let p6 := p2 * p4 in let L2 := Cmult L L in
  match n with
  | 3 => Cmult (Copp L) (Cplus (Cmult (RtoC (/ IZR 6)) L2) (RtoC z2))
  | 4 => Cmult (RtoC (rq (1, 360)%Z)) (Cplus (RtoC (rq (-7, 1)%Z * p4)) (Cmult L2 (Cminus (RtoC (rq (-30, 1)%Z * p2)) (Cmult (RtoC (rq (15, 1)%Z)) L2))))
  | 5 => Cmult (Cmult (RtoC (rq (-1, 360)%Z)) L) (Cplus (RtoC (rq (7, 1)%Z * p4)) (Cmult L2 (Cplus (RtoC (rq (10, 1)%Z * p2)) (Cmult (RtoC (rq (3, 1)%Z)) L2))))
  | _ => Cplus (RtoC (rq (-31, 1)%Z * p6 / IZR 15120)) (Cmult L2 (Cplus (RtoC (rq (-7, 720)%Z * p4)) (Cmult L2 (Cminus (RtoC (rq (-1, 144)%Z * p2)) (Cmult (RtoC (rq (1, 720)%Z)) L2)))))
  end%nat.
Section E.
Variable e : R.
Notation N := (NumR e).
Lemma omul a b : mul N (Some a) (Some b) = Some (a * b). Proof. reflexivity. Qed.
Lemma odivq a b : b <> 0%Z -> div N (Some a) (Some (rq (b, 1%Z))) = Some (a / IZR b).
Proof. intros H. unfold rq. cbn [fst snd]. replace (IZR b / 1) with (IZR b) by field. cbn [div NumR]. rewrite odiv_some by (apply not_0_IZR, H). reflexivity. Qed.
Lemma cdivq z b : b <> 0%Z -> cdiv_cr N (ofC e z) (Some (rq (b, 1%Z))) = ofC e (Cmult (RtoC (/ IZR b)) z).
Proof.
  intros H. pose proof (not_0_IZR b H) as H'. unfold rq. cbn [fst snd]. replace (IZR b / 1) with (IZR b) by field. rewrite ofC_div_cr by exact H'. f_equal.
  rewrite RtoC_inv by exact H'. unfold Cdiv. apply Cmult_comm.
Qed.
Lemma rq1 : rq (1, 1)%Z = 1. Proof. unfold rq. cbn [fst snd]. field. Qed.
Lemma rqm1 : RtoC (rq (-1, 1)%Z) = Copp (RtoC 1). Proof. unfold rq. cbn [fst snd]. rewrite <- RtoC_opp. f_equal. field. Qed.
Lemma Cm1 : RtoC (-1) = Copp (RtoC 1). Proof. rewrite <- RtoC_opp. reflexivity. Qed.
(** what the code returns: [U]: series at unity, [T]: series in -Log(1-z), [sg]: sign of the inverted term *)
Definition cval (n : nat) (Ul Tl : list (Z * Z)) (p z2 sg : R) (z : C) : C :=
  if Rlt_dec (Cmod (Clog z) * Cmod (Clog z)) 1 then Cplus (cpev (map rq Ul) (Clog z)) (Lm n (Clog z))
  else if Rle_dec (Cmod z) 1 then cpev (map rq ((0, 1)%Z :: Tl)) (U z)
  else Cplus (restq n p z2 (lmz p z)) (Cmult (RtoC sg) (cpev (map rq ((0, 1)%Z :: Tl)) (U (Cinv z)))).
End E.
Arguments omul {e}. Arguments odivq {e}. Arguments cdivq {e}.
Ltac evs := repeat first [rewrite frac by discriminate | rewrite lit0 | rewrite litneg | rewrite omul | rewrite odivq by discriminate
  | rewrite ofC_mul | rewrite ofC_add | rewrite ofC_sub | rewrite ofC_opp | rewrite ofC_mul_rc | rewrite ofC_mul_cr | rewrite ofC_add_rc | rewrite ofC_add_cr
  | rewrite ofC_sub_rc | rewrite ofC_sub_cr | rewrite cdivq by discriminate | rewrite spread_ok].
''')
P1=lambda t:'(%d, %s)%%Z'%t
out=[]
for n in (3,4,5,6):
    for p in 'dlq':
        F='cLi%d_%s'%(n,p); f=fun(F); bf=table(F+'_bf'); cs=table(F+'_cs')
        pi=let(f,'PI')
        z2=let(f,'zeta2') if n==3 else (0,'1')
        if n==3: hd=[let(f,'zeta3'),z2,(0,'1'),(-1,'12')]
        if n==4: hd=[let(f,'zeta4'),let(f,'c1'),let(f,'c2'),(0,'1'),(-1,'48')]
        if n==5: hd=[let(f,'zeta5'),let(f,'c1'),let(f,'c2'),let(f,'c3'),(0,'1'),(-1,'240')]
        if n==6: hd=[let(f,'zeta6'),let(f,'c1'),let(f,'c2'),let(f,'c3'),let(f,'c4'),(0,'1'),(-1,'1440')]
        sg='1' if n%2 else '(-1)'
        deleg = (p=='d' and n<=4)
        HY='snd z <> 0' if deleg else 'ordinary3 z' if n==3 else 'ordinary z'
        if deleg:
            H0='destruct (nonreal e z H) as [ZN EQ]. pose proof (nonreal1 z H) as ZO.'
            H1='rewrite skip2 by exact EQ.'
        else:
            H0='destruct (ord_ne z (ord3 z H)) as [ZN ZO]. pose proof (ord3_tests e z H) as TS.' if n==3 else 'destruct (ord_ne z H) as [ZN ZO]. pose proof (ord_tests e z H) as TS.'
            H1='rewrite skip4 by exact TS.' if n==3 else 'rewrite skip3 by exact TS.'
        P('(* src/cpp/Li%d.cpp: the tables and constants of Model_LiC.%s *)'%(n,F))
        P('Definition T_%s_bf : list (Z * Z) := %s.'%(F,lst(bf)))
        P('Definition T_%s_cs : list (Z * Z) := %s.'%(F,lst(cs)))
        P('Definition T_%s_hd : list (Z * Z) := %s.'%(F,lst(hd)))
        P('Definition T_%s_pi : Z * Z := %s.'%(F,P1(pi)))
        for t in ('bf','cs'):
            P('Lemma %s_%s_eq e : %s_%s (NumR e) = Sq T_%s_%s. Proof. unfold %s_%s, Sq, T_%s_%s. cbn [map]. tab. Qed.'%(F,t,F,t,F,t,F,t,F,t))
        P('Lemma ev_%s e z : %s ->'%(F,HY))
        P('  %s (NumR e) (ofC e z) = ofC e (cval %d (T_%s_hd ++ spread T_%s_cs) T_%s_bf (rq T_%s_pi) (rq %s) %s z).'%(F,n,F,F,F,F,P1(z2),sg))
        estr = (p=='d')
        P('Proof.\n  intros H. %s unfold %s, cval. cbv zeta. %s rewrite branch_log by exact ZN. rewrite ofC_arg, branch_unity. unfold Rltb. destruct (Rlt_dec (Cmod (Clog z) * Cmod (Clog z)) 1) as [HU|HU].'%(H0,F,H1))
        P('  - change (@pair (car (NumR e)) (car (NumR e)) (Some (ln (Cmod z))) (Some (Carg z))) with (ofC e (Clog z)).')
        P('    assert (W0 : Copp (Clog z) <> RtoC 0) by (apply Copp_ne, Clog_n0; assumption).')
        P('    rewrite Lm_Lc by lia. rewrite %s_cs_eq. cbn [Nat.sub Lc]. set (w := Clog z) in *. rewrite ofC_opp, pos_log_ok by exact W0.'%F)
        if n==3 and p=='d':
            P('    unfold T_%s_cs, T_%s_hd. cbn [Num.aref nth Sq map app spread]. evs. apply (f_equal (ofC e)). cbn [cpev]. rewrite !rq0.'%(F,F))
        else:
            P('    rewrite ofC_mul, chorner_ok by (unfold T_%s_cs; cbn [length]; lia). unfold T_%s_hd. cbn [map app]. evs. apply (f_equal (ofC e)). cbn [cpev]. rewrite !rq0, ?spread_ok.'%(F,F))
            P('    generalize (cpev (map rq T_%s_cs) (Cmult w w)); intros X.'%F)
        if n==3: P('    replace (rq (-1, 12)%Z) with (- (/ IZR 12)) by (unfold rq; cbn [fst snd]; field). rewrite RtoC_opp.')
        P('    generalize (Clog (Copp w)); intros lw. absq. cbn [Cpow]. change (RtoC 0) with (RtoC 0). ring.')
        P('  - rewrite ofC_abs, branch_le1. unfold Rleb. destruct (Rle_dec (Cmod z) 1) as [H1|H1].')
        fin='' 
        def tail(uu):
            P('      set (u := U %s).'%uu)
            if estr:
                P('      unfold T_%s_bf. cbn [Num.aref nth Sq map]. evs. cbn [cpev]. rewrite rq0.'%F)
            else:
                P('      rewrite chorner_ok by (unfold T_%s_bf; cbn [length]; lia). evs. rewrite map_cons. cbn [cpev]. rewrite rq0. generalize (cpev (map rq T_%s_bf) u); intros X.'%(F,F))
        P('    + rewrite opp1p by exact ZO. rewrite %s_bf_eq. change (lit (NumR e) 0 0, lit (NumR e) 0 0) with (ofC e (RtoC (litR 0 0), litR 0 0)).'%F)
        o[-1]='    + rewrite opp1p by exact ZO. rewrite %s_bf_eq. rewrite ?(lit_int _ 0). match goal with |- context [@pair ?A ?B (Some 0) (Some 0)] => change (@pair A B (Some 0) (Some 0)) with (ofC e (RtoC 0)) end.'%F
        tail('z')
        if n%2==0: P('      rewrite rq1.')
        P('      apply (f_equal (ofC e)). absq. ring.')
        P('    + rewrite inv1p by assumption. rewrite %s_bf_eq. rewrite branch_pos. rewrite (litneg e %d). rewrite lmz_ok. fold (rq T_%s_pi).'%(F,pi[0],F))
        tail('(Cinv z)')
        if n%2==0: P('      rewrite rqm1, Cm1.')
        P('      apply (f_equal (ofC e)). unfold T_%s_pi. cbn [restq]. set (Lz := lmz _ z).'%F)
        P('      match goal with |- context [Cplus ?R0 _] => idtac end. absq. ring.')
        P('Qed.')
print('\n'.join(o))
