#!/usr/bin/env python3
"""Generates Cl_core_d.v (double) and Cl_core_l.v (x87 long double): instances of the
IEEE error analysis of Cl2 .. Cl6."""
import sys
T='rocq/theories/'
conf={'d':dict(prec=53,emax=1024,Hp='Hp53',He='He53',B='B64',pi='314159265358979324 (-17)',p1='19353071795864769253 (-22)',
  PI=(7074237752028440,-51),P1=(8925029061461098,-62),P2=-50,L='Pd',
  real={2:'3 / 10 ^ 17',3:'1 / 10 ^ 16',4:'1 / 10 ^ 16',5:'7 / 10 ^ 17',6:'6 / 10 ^ 16'},
  kN={2:9,3:24,4:19,5:14,6:15},kF={2:41,3:25,4:38,5:22,6:27},n={2:(16,16),3:(16,16),4:(16,16),5:(16,16),6:(16,16)},z={3:'12020569031595943 (-16)',5:'10369277551433699 (-16)'}),
 'l':dict(prec=64,emax=16384,Hp='Hp64',He='He64',B='B80',pi='314159265358979323846264338327950288 (-35)',p1='19353071795864769252867665590057683943 (-40)',
  PI=(14488038916154245685,-62),P1=(18278459517872327756,-73),P2=-61,L='Pl',
  real={2:'1 / 10 ^ 35',3:'7 / 10 ^ 26',4:'1 / 10 ^ 25',5:'7 / 10 ^ 26',6:'1 / 10 ^ 25'},
  kN={2:9,3:36,4:27,5:20,6:23},kF={2:192,3:12000,4:3600,5:16000,6:71000},n={2:(16,16),3:(256,64),4:(16,16),5:(256,64),6:(256,64)},z={3:'12020569031595942853997381615114499908 (-37)',5:'1036927755143369926331365486457034168057 (-39)'})}
for t,c in conf.items():
    pr=c['prec']; L1=1727108466399
    o=f'''(** * Cl2 .. Cl6 in IEEE arithmetic, {"double" if t=="d" else "x87 long double"}: every core is finite and accurate on (0, PI]

    Generated by tools/gen_cl_core.py. *)
From Coq Require Import ZArith Reals Bool Lia Lra Psatz List.
From Coquelicot Require Import Rcomplements.
From Interval Require Import Tactic.
From Flocq Require Import Core Relative IEEE754.BinarySingleNaN.
From Verif Require Import Num NumR Eval_R NumB NumB_facts Proof_Float Libm Polylog Clausen Clausen_vals Proof_Cl Cl_full Cl_shape Cl_branch Model_Cl16 Ferr FerrB Fmod Cl_ieee Cl_pieces.
Import ListNotations.
Local Open Scope R_scope.

Section C.
Variable L : libm {pr} {c['emax']}.
Hypothesis HL : libm_ok (Hp := {c['Hp']}) (He := {c['He']}) L.
Notation N := ({c['B']} L).
Lemma pi_val_{t} : is_finite (PI{t} N) = true /\\ B2R (PI{t} N) = IZR {c['PI'][0]} / IZR (2 ^ {-c['PI'][1]}).
Proof.
  assert (E : B2SF (blit {pr} {c['emax']} {c['Hp']} {c['He']} {c['pi']}) = SpecFloat.S754_finite false {c['PI'][0]} ({c['PI'][1]})) by (vm_compute; reflexivity).
  change (PI{t} N) with (blit {pr} {c['emax']} {c['Hp']} {c['He']} {c['pi']}). split; [rewrite <- is_finite_SF_B2SF, E; reflexivity|]. rewrite <- SF2R_B2SF, E. cbn [SF2R cond_Zopp]. unfold F2R. cbn [Fnum Fexp].
  rewrite bpow_neg. reflexivity.
Qed.
Lemma p1_val_{t} : is_finite (p1{t} N) = true /\\ B2R (p1{t} N) = IZR {c['P1'][0]} / IZR (2 ^ {-c['P1'][1]}).
Proof.
  assert (E : B2SF (blit {pr} {c['emax']} {c['Hp']} {c['He']} {c['p1']}) = SpecFloat.S754_finite false {c['P1'][0]} ({c['P1'][1]})) by (vm_compute; reflexivity).
  change (p1{t} N) with (blit {pr} {c['emax']} {c['Hp']} {c['He']} {c['p1']}). split; [rewrite <- is_finite_SF_B2SF, E; reflexivity|]. rewrite <- SF2R_B2SF, E. cbn [SF2R cond_Zopp]. unfold F2R. cbn [Fnum Fexp].
  rewrite bpow_neg. reflexivity.
Qed.
Lemma twopi_val_{t} : is_finite (mul N (lit N 2 0) (PI{t} N)) = true /\\ B2R (mul N (lit N 2 0) (PI{t} N)) = IZR {c['PI'][0]} / IZR (2 ^ {-c['P2']}).
Proof.
  assert (E : B2SF (Bmult mode_NE (blit {pr} {c['emax']} {c['Hp']} {c['He']} 2 0) (blit {pr} {c['emax']} {c['Hp']} {c['He']} {c['pi']})) = SpecFloat.S754_finite false {c['PI'][0]} ({c['P2']})) by (vm_compute; reflexivity).
  change (mul N (lit N 2 0) (PI{t} N)) with (Bmult mode_NE (blit {pr} {c['emax']} {c['Hp']} {c['He']} 2 0) (blit {pr} {c['emax']} {c['Hp']} {c['He']} {c['pi']})).
  split; [rewrite <- is_finite_SF_B2SF, E; reflexivity|]. rewrite <- SF2R_B2SF, E. cbn [SF2R cond_Zopp]. unfold F2R. cbn [Fnum Fexp].
  rewrite bpow_neg. reflexivity.
Qed.
Lemma p0_val_{t} : is_finite (lit N 628125 (-5)) = true /\\ B2R (lit N 628125 (-5)) = 201 / 32.
Proof.
  assert (E : B2SF (blit {pr} {c['emax']} {c['Hp']} {c['He']} 628125 (-5)) = SpecFloat.S754_finite false {201*2**(pr-8)} (- {pr-3})) by (vm_compute; reflexivity).
  change (lit N 628125 (-5)) with (blit {pr} {c['emax']} {c['Hp']} {c['He']} 628125 (-5)). split; [rewrite <- is_finite_SF_B2SF, E; reflexivity|]. rewrite <- SF2R_B2SF, E. cbn [SF2R cond_Zopp]. unfold F2R. cbn [Fnum Fexp].
  rewrite bpow_neg. change (2 ^ {pr-3})%Z with {2**(pr-3)}%Z. lra.
Qed.
Lemma w_{t} : bpow radix2 (2 - {pr}) = / IZR {2**(pr-2)}.
Proof. change (2 - {pr})%Z with (Zneg {pr-2}). rewrite bpow_neg. reflexivity. Qed.
Lemma consts_{t} : consts_ok {pr} {c['emax']} (PI{t} N) (mul N (lit N 2 0) (PI{t} N)) (lit N 628125 (-5)) (p1{t} N).
Proof.
  destruct pi_val_{t} as [A1 A2], p1_val_{t} as [B1 B2], twopi_val_{t} as [C1 C2], p0_val_{t} as [D1 D2]. constructor.
  - repeat split; assumption.
  - rewrite C2, A2. change (2 ^ {-c['PI'][1]})%Z with {2**-c['PI'][1]}%Z. change (2 ^ {-c['P2']})%Z with {2**-c['P2']}%Z. lra.
  - exact D2.
  - rewrite A2. change (2 ^ {-c['PI'][1]})%Z with {2**-c['PI'][1]}%Z. lra.
  - exists {c['PI'][0]}%Z. rewrite A2, w_{t}. change (2 ^ {-c['PI'][1]})%Z with {2**-c['PI'][1]}%Z. lra.
  - rewrite A2, B2, w_{t}. change (2 ^ {-c['PI'][1]})%Z with {2**-c['PI'][1]}%Z. change (2 ^ {-c['P1'][1]})%Z with {2**-c['P1'][1]}%Z. lra.
  - rewrite A2, B2, w_{t}. change (2 ^ {-c['PI'][1]})%Z with {2**-c['PI'][1]}%Z. change (2 ^ {-c['P1'][1]})%Z with {2**-c['P1'][1]}%Z. lra.
  - rewrite B2. change (2 ^ {-c['P1'][1]})%Z with {2**-c['P1'][1]}%Z. lra.
Qed.
Lemma em_{t} : (128 <= {c['emax']})%Z /\\ (142 <= {c['emax']} + {pr})%Z /\\ (1 < {pr})%Z /\\ ({c['emax']} + {pr} <= 16600)%Z. Proof. lia. Qed.
Lemma PIH_bnd_{t} : is_finite (PIH{t} N) = true /\\ 1570796 / 1000000 <= B2R (PIH{t} N) <= 15707999 / 10000000.
Proof.
  destruct em_{t} as (E1 & E2 & E3 & E4).
  assert (C : check {pr} (PIH{t} NumE) [[]] (2 ^ 110) = true) by (vm_compute; reflexivity).
  destruct (const_check {pr} {c['emax']} {c['Hp']} {c['He']} E3 E1 E2 L (PIH{t} NumE) (2 ^ 110) 0 ({c['L']} / 2) C) as [F G].
  - change (evalN (NumR 0) (fun _ : nat => Some 0) (PIH{t} NumE)) with (div (NumR 0) (PI{t} (NumR 0)) (lit (NumR 0) 2 0)). rewrite PI{t}_R. cbn [NumR div lit]. rewrite litR_int, odiv_some by lra. reflexivity.
  - change (evalN (NumB {pr} {c['emax']} {c['Hp']} {c['He']} L) (fun _ : nat => B754_zero false) (PIH{t} NumE)) with (PIH{t} N) in F, G. split; [exact F|]. apply Rabs_le_between in G. unfold {c['L']} in G.
    assert (S : IZR (2 ^ 110) / sc = / 2 ^ 30) by (unfold sc; change (2 ^ 110)%Z with {2**110}%Z; change SH with {2**140}%Z; lra). rewrite S in G. lra.
Qed.
'''
    for n in range(2,7):
        n1,n2=c['n'][n]; s1=400000000000//n1; s2=1327200000000//n2
        kN,kF=c['kN'][n],c['kF'][n]; k=max(kN,kF)
        EN=f'({kN} * 2 ^ {140-pr})'; EF=f'({kF} * 2 ^ {140-pr})'
        o+=f'''Lemma ck{n}{t}N : check {pr} Cl{n}_{t}_nx (pN {pr}) {EN} = true.
Proof. vm_compute. reflexivity. Qed.
Lemma ck{n}{t}F : check {pr} Cl{n}_{t}_fx (grid {L1} {s1} {n1} ++ grid ({L1} + {s1} * Z.of_nat {n1}) {s2} {n2}) {EF} = true.
Proof. vm_compute. reflexivity. Qed.
Definition e{n}{t} : R := {c['real'][n]} + {k} / 2 ^ {pr}.
Lemma core{n}{t}_ieee (x : car N) : is_finite x = true -> 0 < B2R x <= B2R (PI{t} N) ->
  is_finite (Cl{n}_{t}_core N x) = true /\\ Rabs (B2R (Cl{n}_{t}_core N x) - Clspec {n} (B2R x)) <= e{n}{t}.
Proof.
  intros Fx Hx. destruct em_{t} as (E1 & E2 & E3 & E4). destruct PIH_bnd_{t} as [PF PB]. destruct pi_val_{t} as [_ PV]. change (2 ^ {-c['PI'][1]})%Z with {2**-c['PI'][1]}%Z in PV.
  rewrite Cl{n}_{t}_split. change (ltb N x (PIH{t} N)) with (Bltb x (PIH{t} N)). rewrite (Bltb_correct _ _ x _ Fx PF). destruct (Rlt_bool_spec (B2R x) (B2R (PIH{t} N))) as [Q|Q].
  - assert (Hx' : 0 < B2R x <= 15707999 / 10000000) by lra. destruct (near{n}{t} 0 (B2R x) ltac:(lra)) as (v & V1 & V2).
    destruct (near_check {pr} {c['emax']} {c['Hp']} {c['He']} E3 E1 E2 E4 L HL Cl{n}_{t}_nx {EN} 0 v x ck{n}{t}N Fx Hx' V1) as [F G].
    change (NumB {pr} {c['emax']} {c['Hp']} {c['He']} L) with N in F, G. rewrite (Cl{n}_{t}_nx_ok N) in F, G. cbn [nth] in F, G. set (w := Cl{n}_{t}_near N x (nlog N x)) in F, G |- *. clearbody w. split; [exact F|].
    assert (S : IZR {EN} / sc = {kN} / 2 ^ {pr}) by (unfold sc; change {EN}%Z with {kN*2**(140-pr)}%Z; change SH with {2**140}%Z; lra). rewrite S in G.
    apply (tri_le _ v _ _ _ _ G V2). unfold e{n}{t}. lra.
  - assert (Hx' : 1570796 / 1000000 <= B2R x <= 31416 / 10000) by lra. destruct (far{n}{t} 0 (B2R x) Hx') as (v & V1 & V2).
    destruct (far_check {pr} {c['emax']} {c['Hp']} {c['He']} E3 E1 E2 L Cl{n}_{t}_fx {EF} 0 v x {L1} {s1} {n1} {s2} {n2} ck{n}{t}F) as [F G]; [lia|lia|lia|lia|exact Fx| |exact V1|].
    {{ unfold s40. change (2 ^ 40)%Z with {2**40}%Z. change ({L1} + {s1} * Z.of_nat {n1} + {s2} * Z.of_nat {n2})%Z with {L1+s1*n1+s2*n2}%Z. lra. }}
    change (NumB {pr} {c['emax']} {c['Hp']} {c['He']} L) with N in F, G. rewrite (Cl{n}_{t}_fx_ok N) in F, G. cbn [nth] in F, G. set (w := Cl{n}_{t}_far N x) in F, G |- *. clearbody w. split; [exact F|].
    assert (S : IZR {EF} / sc = {kF} / 2 ^ {pr}) by (unfold sc; change {EF}%Z with {kF*2**(140-pr)}%Z; change SH with {2**140}%Z; lra). rewrite S in G.
    apply (tri_le _ v _ _ _ _ G V2). unfold e{n}{t}. lra.
Qed.
'''
    o+='End C.\n'
    open(T+f'Cl_core_{t}.v','w').write(o)
