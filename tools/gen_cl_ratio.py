import sys
import re
src=open('/verif/rocq/theories/Model_Cl16.v').read()
def tabK(name):
    m=re.search(r'Definition %s : list N := \[(.*?)\]\.'%name,src,re.S)
    return max([0]+[-int(b) for a,b in re.findall(r'lit N \(?(-?\d+)\)? \(?(-?\d+)\)?',m.group(1))])
err={('d','N'):{2:(60,20),3:(15,18),4:(6,18),5:(3,17),6:(25,17)},
     ('d','F'):{2:(6,18),3:(5,18),4:(2,17),5:(6,18),6:(2,17)},
     ('l','N'):{2:(3,40),3:(2,38),4:(3,39),5:(1,36),6:(1,36)},
     ('l','F'):{2:(2,37),3:(3,26),4:(3,26),5:(3,26),6:(3,26)}}
base=open('/verif/tools/Cl_ratio_base.v.in').read()
tac='''
Ltac poly_eval := cbn [NumR add mul sub div car aref nth lit lift2]; f_equal.
'''
def block(s,b,n):
    suf='' if b=='N' else '2'
    P=f'Cl{n}_{s}_P{suf}';Q=f'Cl{n}_{s}_Q{suf}'
    K=max(tabK(P),tabK(Q))
    shifted = not (b=='N' and (s=='d' or n>=5))
    en,ed=err[(s,b)][n]; en*=2; m=4
    if (s,b,n)==('d','N',6): en=32; m=16
    c=f'chkS u{s} e{s}' if shifted else 'chk0'
    ok=f'chkS_ok' if shifted else 'chk0_ok'
    nm=f'c{n}{s}{b}'
    v=f'(y + IZR u{s} / IZR e{s})' if shifted else 'y'
    o=''
    for pq,T in (('p',P),('q',Q)):
        o+=f'''Lemma ev_{pq}{n}{s}{b} ep z : Cl{n}_{s}_{pq}{suf} (NumR ep) (Some z) = Some (plit ({T} NumLit) z).
Proof. unfold Cl{n}_{s}_{pq}{suf}, {T}. poly_eval. cbn [plit lit NumLit]. unfold litp. cbn [fst snd]. ring. Qed.
'''
    o+=f'''Lemma {nm} : {c} ({P} NumLit) ({Q} NumLit) W{b}{n} D{b}{n} {K} {m} {en} (10 ^ {ed}) = true.
Proof. vm_compute. reflexivity. Qed.
Lemma r{n}{s}{b} ep y : 0 <= y <= 987 / 400 -> exists p q, Cl{n}_{s}_p{suf} (NumR ep) (Some {v}) = Some p /\\ Cl{n}_{s}_q{suf} (NumR ep) (Some {v}) = Some q /\\
  0 < q /\\ Rabs (p / q - e{b} {n} y) <= {en} / 10 ^ {ed}.
Proof.
  intros Hy. destruct ({ok} _ _ {"_ _ " if shifted else ""}_ _ _ _ _ _ {nm} y Hy) as [A B].
  eexists. eexists. split; [apply ev_p{n}{s}{b}|]. split; [apply ev_q{n}{s}{b}|]. split; [exact A|]. p10 {ed}%nat in B. exact B.
Qed.
'''
    return o
hdr=base
A=base+tac
for s,b in (('d','N'),('d','F'),('l','N')):
    for n in range(2,7): A+=block(s,b,n)
open('Cl_ratio.v','w').write(A)
H='''(** * The long double approximations near pi (continuation of Cl_ratio.v) *)
From Coq Require Import Reals Lra Lia Psatz ZArith List Bool.
From Bignums Require Import BigZ.
From Verif Require Import Num NumR Eval_R Cheb Cheb_big Poly_check Model_Cl16 Cl_shape Clausen_ref Proof_Li2 Cl_ratio.
Import ListNotations.
Local Open Scope R_scope.
'''
for n in range(2,7): H+=block('l','F',n)
open('Cl_ratio_l.v','w').write(H)
