#!/usr/bin/env python3
"""Generate theories/Cl_shape.v: the text of Model_Cl16.v split into argument
reduction, special points, and the numerator/denominator polynomials."""
import re
src=open('/verif/rocq/theories/Model_Cl16.v').read()
w=open('/verif/rocq/theories/Cl_shape.v','w')
w.write('''(** * The common shape of Cl2 .. Cl6: argument reduction, special points, core

    [Cln_t N x = cl_even ... x] or [cl_odd ... x] by conversion; the cores and
    polynomials are the text of Model_Cl16.v.  Generated by tools/gen_cl_shape.py. *)
From Coq Require Import ZArith List Bool.
From Verif Require Import Num Model_Cl16.
Import ListNotations.
Local Open Scope Z_scope.

Section M.
Variable N : num.
Local Notation "x + y" := (add N x y).
Local Notation "x - y" := (sub N x y).
Local Notation "x * y" := (mul N x y).
Local Notation "x / y" := (div N x y).
Local Notation aref N c i := (Num.aref N c i%nat).
Definition PId := lit N 314159265358979324 (-17).
Definition PIl := lit N 314159265358979323846264338327950288 (-35).
Definition p1d := lit N 19353071795864769253 (-22).
Definition p1l := lit N 19353071795864769252867665590057683943 (-40).

Definition cl_even (PI p1 : N) (core : N -> N) (x : N) : N :=
  let '(x, sgn) := if ltb N x (lit N 0 0) then (opp N x, lit N (-1) 0) else (x, lit N 1 0) in
  let x := if leb N (lit N 2 0 * PI) x then nfmod N x (lit N 2 0 * PI) else x in
  let '(x, sgn) := if ltb N PI x then (lit N 628125 (-5) - x + p1, opp N sgn) else (x, sgn) in
  if eqb N x (lit N 0 0) then x else if eqb N x PI then lit N 0 0 else sgn * core x.
Definition cl_odd (PI p1 z : N) (core : N -> N) (x : N) : N :=
  let x := if ltb N x (lit N 0 0) then opp N x else x in
  let x := if leb N (lit N 2 0 * PI) x then nfmod N x (lit N 2 0 * PI) else x in
  let x := if ltb N PI x then lit N 628125 (-5) - x + p1 else x in
  if eqb N x (lit N 0 0) then z else core x.

''')
for n in range(2,7):
    for s in 'dl':
        m=re.search(r'Definition Cl%d_%s \(x : car N\) : car N :=\n(.*?)\.\n\n'%(n,s),src,re.S)
        body=m.group(1)
        body=re.sub(r'aref N (Cl\d_[dl]_[PQ]2?)',r'aref N (\1 N)',body)
        z=re.search(r'let zeta\d := (lit N \d+ \(-\d+\)) in',body)
        i=body.index('if ltb N x PIH then'); j=body.index('      else\n',i)
        br=[body[i:j],body[j:]]
        forms=[]
        for k,b in enumerate(br):
            lets=re.findall(r'let (\w+) := (.*?) in\n',b)
            d=dict(lets)
            v='z' if 'z' in d else 'y'
            pw=''.join('  let %s := %s in\n'%(a,e) for a,e in lets if re.fullmatch(v+r'\d+',a))
            suf='' if k==0 else '2'
            for pq in 'pq':
                w.write('Definition Cl%d_%s_%s%s (%s : N) : N :=\n%s  %s.\n'%(n,s,pq,suf,v,pw,d[pq]))
            keep=[(a,e) for a,e in lets if a in('y','z') or (a=='y2' and k==0)]
            keep=''.join('let %s := %s in '%ae for ae in keep)
            form=re.sub(r'\bp\b','Cl%d_%s_p%s %s'%(n,s,suf,v),d['h'])
            form=re.sub(r'\bq\b','Cl%d_%s_q%s %s'%(n,s,suf,v),form)
            forms.append(keep+form)
        w.write('Definition Cl%d_%s_core (x : N) : N :=\n  let PI := PI%s in\n  let PIH := PI / lit N 2 0 in\n  let PI28 := PI * PI / lit N 8 0 in\n%s  if ltb N x PIH then %s\n  else %s.\n'%(n,s,s,('  '+z.group(0)+'\n') if z else '',*forms))
        if n%2==0:
            w.write('Lemma Cl%d_%s_shape x : Cl%d_%s N x = cl_even PI%s p1%s Cl%d_%s_core x.\nProof. reflexivity. Qed.\n\n'%((n,s)*2+(s,s,n,s)))
        else:
            w.write('Lemma Cl%d_%s_shape x : Cl%d_%s N x = cl_odd PI%s p1%s (%s) Cl%d_%s_core x.\nProof. reflexivity. Qed.\n\n'%((n,s)*2+(s,s,z.group(1),n,s)))
w.write('End M.\n')
