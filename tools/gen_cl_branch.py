#!/usr/bin/env python3
"""Splits the cores of Cl_shape.v into their two branches (Cl_branch.v) and
derives the exact-arithmetic accuracy of each branch from the text of the core
lemmas of Proof_Cl.v."""
import re
T='rocq/theories/'
s=open(T+'Cl_shape.v').read()
out='''(** * The two branches of the cores of Cl2 .. Cl6

    [Cln_t_near x l] is the branch x < PI/2 with l for log(x), [Cln_t_far x] the
    other one.  The accuracy of each branch in exact arithmetic does not need
    the branch condition itself, only a slightly larger interval, because the
    floating-point comparison with PI/2 is not exact.
    Generated by tools/gen_cl_branch.py. *)
From Coq Require Import ZArith Reals Lra Lia Psatz List Bool.
From Flocq Require Import Core.
From Coquelicot Require Import Coquelicot.
From Verif Require Import Num NumR Eval_R Consts Model_Cl16 Cl_shape Fourier Polylog Chain Clausen Clausen_vals Clausen_ref Cl_ratio Cl_ratio_l Proof_Cl Ferr FerrB.
Import ListNotations.
Local Open Scope Z_scope.

Section M.
Variable N : num.
Local Notation "x + y" := (add N x y).
Local Notation "x - y" := (sub N x y).
Local Notation "x * y" := (mul N x y).
Local Notation "x / y" := (div N x y).
Definition PIHd := PId N / lit N 2 0.
Definition PIHl := PIl N / lit N 2 0.
'''
names=[]
for m in re.finditer(r'Definition Cl(\d)_([dl])_core \(x : N\) : N :=\n(.*?)\.\n(?=Lemma)',s,re.S):
    n,t,body=m.groups()
    pre,rest=body.split('  if ltb N x PIH then ')
    near,far=rest.split('\n  else ')
    pre=pre.replace('PId','PId N').replace('PIl','PIl N')
    def args(b): return re.sub(r'(Cl\d_[dl]_[pq]2?) ',r'\1 N ',b)
    near=args(near.replace('(nlog N x)','l')); far=args(far)
    out+=f'Definition Cl{n}_{t}_near (x l : N) : N :=\n{pre}  {near}.\nDefinition Cl{n}_{t}_far (x : N) : N :=\n{pre}  {far}.\n'
    out+=f'Lemma Cl{n}_{t}_split x : Cl{n}_{t}_core N x = if ltb N x PIH{t} then Cl{n}_{t}_near x (nlog N x) else Cl{n}_{t}_far x.\nProof. reflexivity. Qed.\n'
    out+=f'Lemma Cl{n}_{t}_near_e env : Cl{n}_{t}_near (env 0%nat) (env 1%nat) = evalN N env (Cl{n}_{t}_near_x).\nProof. reflexivity. Qed.\n' if 0 else ''
    names.append((n,t))
out+='End M.\n'
for n,t in names:
    out+=f'''Definition Cl{n}_{t}_nx : ex := Cl{n}_{t}_near NumE (V 0) (V 1).
Definition Cl{n}_{t}_fx : ex := Cl{n}_{t}_far NumE (V 0).
Lemma Cl{n}_{t}_nx_ok (N : num) env : evalN N env Cl{n}_{t}_nx = Cl{n}_{t}_near N (env 0%nat) (env 1%nat).
Proof. reflexivity. Qed.
Lemma Cl{n}_{t}_fx_ok (N : num) env : evalN N env Cl{n}_{t}_fx = Cl{n}_{t}_far N (env 0%nat).
Proof. reflexivity. Qed.
'''
out+='''
Local Open Scope R_scope.
Lemma Cl_even_pi n : Nat.even n = true -> Clspec n PI = 0.
Proof. intros E. pose proof (refl_pi n 0) as H. replace (PI - - 0) with PI in H by ring. rewrite Rminus_0_r in H. unfold par in H. rewrite E in H. lra. Qed.
Lemma combFe' n w r e : (n = 2 \\/ n = 4 \\/ n = 6)%nat -> - (8 / 5) < w < 8 / 5 -> Rabs (r - eF n (w * w)) <= e -> Rabs (w * r - Clspec n (PI - w)) <= 16 / 10 * e + 4 / 10 ^ 37.
Proof.
  intros Hn Hw H. destruct (Req_dec w 0) as [E|E]; [|exact (combFe n w r e Hn Hw E H)].
  rewrite E. rewrite Rmult_0_l, Rminus_0_r, Cl_even_pi by (destruct Hn as [->|[->| ->]]; reflexivity). rewrite Rminus_0_r, Rabs_R0. pose proof (Rabs_pos (r - eF n (w * w))). assert (0 < 10 ^ 37) by (apply pow_lt; lra). assert (0 < 4 / 10 ^ 37) by (apply Rdiv_lt_0_compat; lra). lra.
Qed.
'''
pc=open(T+'Proof_Cl.v').read()
for m in re.finditer(r'Lemma core(\d)([dl]) ep x : .*?Rabs \(v - Clspec \d x\) <= (.*?)\.\nProof\.\n(.*?)Qed\.\n',pc,re.S):
    n,t,b,proof=m.groups()
    a=proof.index('  - rewrite Rltb_true'); c=proof.index('  - rewrite Rltb_false')
    near=proof[a:c].split('as [Hs Hy].',1)[1]
    near=near.replace('rewrite odiv_some, olog_some by lra','rewrite odiv_some by lra')
    far=proof[c:].split('rewrite Rltb_false by exact L.',1)[1]
    far=far.replace('combFe '+n+' _ _ _ ltac:(tauto) Hw ltac:(lra) H',"combFe' "+n+' _ _ _ ltac:(tauto) Hw H')
    out+=f'''Lemma near{n}{t} ep x : 0 < x <= 15708 / 10000 -> exists v, Cl{n}_{t}_near (NumR ep) (Some x) (Some (ln x)) = Some v /\\ Rabs (v - Clspec {n} x) <= {b}.
Proof.
  intros Hx. assert (Hs : 0 < x < 8 / 5) by lra. assert (Hy : 0 <= x * x <= 987 / 400) by (split; nra).
  unfold Cl{n}_{t}_near. core_start.{near.rstrip()}
Qed.
Lemma far{n}{t} ep x : 1570796 / 1000000 <= x <= 31416 / 10000 -> exists v, Cl{n}_{t}_far (NumR ep) (Some x) = Some v /\\ Rabs (v - Clspec {n} x) <= {b}.
Proof.
  intros Hx. unfold Cl{n}_{t}_far. core_start.{far.rstrip()}
Qed.
'''
open(T+'Cl_branch.v','w').write(out)
