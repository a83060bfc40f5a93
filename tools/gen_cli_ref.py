#!/usr/bin/env python3
"""Writes rocq/theories/CLi_ref.v: integer reference coefficients for the complex polylogarithm
   (expansion near 1 and expansion in u = -Log(1-z)).  The coefficients are only *candidates*:
   CLi_ref.v checks, inside Coq, that they satisfy the differential equations up to a tiny residual."""
from fractions import Fraction as Fr
from math import comb, factorial
K=128; KT=60; D=10**70
B=[Fr(1)]
for n in range(1,K+2):
    B.append(-sum(comb(n+1,k)*B[k] for k in range(n))/(n+1))
def rnd(x): 
    y=x*D
    return (2*y.numerator+y.denominator)//(2*y.denominator)
Bp=B[:]; Bp[1]=Fr(1,2)
bz=[rnd(-Bp[k]/factorial(k)) for k in range(1,K+1)]
while bz[-1]==0: bz.pop()
g=[B[k]/factorial(k) for k in range(KT+1)]
Q={1:[Fr(0),Fr(1)]+[Fr(0)]*(KT-1)}
for n in range(2,7):
    a=Q[n-1][1:]+[Fr(0)]   # Q_{n-1}(u)/u
    d=[sum(a[i]*g[k-i] for i in range(k+1)) for k in range(KT)]
    Q[n]=[Fr(0)]+[d[k]/(k+1) for k in range(KT)]
def lst(l): return "["+"; ".join(str(x) for x in l)+"]%Z"
out='''(** GENERATED by tools/gen_cli_ref.py.  Reference polynomials for the complex polylogarithm:
    candidates for the Taylor coefficients (scaled by 10^70); the residual checks below, evaluated in Coq, are what
    makes them trustworthy. Nothing here mentions the code. *)
From Coq Require Import ZArith Reals List Bool Lra Lia Psatz.
From Coquelicot Require Import Coquelicot.
From Interval Require Import Tactic.
From Bignums Require Import BigZ.
From Verif Require Import NumR Spec Cplx Clog_series Chain Polylog Ccalc CLi CLi_disc CLi_inv Unity Rest Cpoly CLi_unity CLi_exp CLi_T Cheb_big.
Import ListNotations.
Local Open Scope R_scope.
Definition DD : Z := (10 ^ 70)%Z.
'''
out+="Definition bz : list Z := "+lst(bz)+".\n"
out+="Definition qz (n : nat) : list Z := match n with\n  | 1%nat => [0; DD]%Z\n"
for n in range(2,7):
    q=[rnd(x) for x in Q[n]]
    while q[-1]==0: q.pop()
    out+="  | %d%%nat => %s\n"%(n,lst(q))
out+="  | _ => [] end.\n"
out+=open('/verif/tools/CLi_ref_tail.v.in').read()
open('/verif/rocq/theories/CLi_ref.v','w').write(out)
