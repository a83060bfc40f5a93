#!/usr/bin/env python3
# writes rocq/theories/Li2_inst.v
prec={'f':24,'d':53,'l':64,'q':113}; emax={'f':128,'d':1024,'l':16384,'q':16384}; B={'f':'B32','d':'B64','l':'B80','q':'B128'}
PI={'f':(314159265,-8),'d':(31415926535897932,-16),'l':(314159265358979323846264338327950288,-35),'q':(314159265358979323846264338327950288,-35)}
piacc={'f':'4 / 10 ^ 9','d':'39 / 10 ^ 18','l':'5 / 10 ^ 36','q':'5 / 10 ^ 36'}
pid={'f':'39 / 10 ^ 10','d':'385 / 10 ^ 19','l':'43 / 10 ^ 37','q':'43 / 10 ^ 37'}
n={'f':4,'d':6,'l':6,'q':8}
cp={'f':4991,'d':41481,'l':38619,'q':885301}; cq={'f':6169,'d':57283,'l':45876,'q':1137642}
e={'f':'3 / 10 ^ 7','d':'101 / 10 ^ 18','l':'221 / 10 ^ 22','q':'491 / 10 ^ 38'}
ev={'f':3e-7,'d':101e-18,'l':221e-22,'q':491e-38}
import math
Kv={p:math.ceil(5/3*(cp[p]+cq[p])/1000+6+ev[p]*2.0**prec[p]+0.01) for p in prec}
out='''(** * Real Li2 in IEEE arithmetic: the instances float, double, long double (x87), quadruple

    Generated by tools/gen_li2_inst.py. *)
From Coq Require Import ZArith Reals Bool Lia Lra Psatz List.
From Coquelicot Require Import Rcomplements.
From Flocq Require Import Core Relative IEEE754.BinarySingleNaN.
From Verif Require Import Num NumR Eval_R NumB NumB_facts Proof_Float Libm Ferr FerrB Fcalc Polylog Consts Cl_pieces Model_LiR Poly_check Proof_Li2 Li2_ieee Li2_core.
Import ListNotations.
Local Open Scope R_scope.

Lemma evalN_ext (N : num) (e1 e2 : nat -> N) e : (forall i, e1 i = e2 i) -> evalN N e1 e = evalN N e2 e.
Proof. intros H. induction e; cbn [evalN]; congruence. Qed.
(** constants: the value computed for c = +-PI*PI/k *)
Lemma pi_const prec emax (Hp : Prec_gt_0 prec) (He : Prec_lt_emax prec emax) (L : libm prec emax) m k d sg z (c : Z) (e : ex) :
  (16 < prec <= 138)%Z -> (128 <= emax)%Z -> (142 <= emax + prec)%Z -> Rabs (litR m k - PI) <= d -> d <= / 100 -> d * (63 / 10) <= 3 * u prec -> (3 <= z)%Z -> (sg = 1 \\/ sg = -1) ->
  check prec e [[]] (c * 2 ^ (138 - prec)) = true ->
  (e = EDiv (EMul (K m k) (K m k)) (K z 0) /\\ sg = 1 \\/ e = EDiv (EMul (EOpp (K m k)) (K m k)) (K z 0) /\\ sg = -1) ->
  A prec emax (evalN (NumB prec emax Hp He L) (fun _ => B754_zero false) e) (sg * (PI * PI / IZR z)) ((IZR c / 4 + 1) * u prec).
Proof.
  intros P1 P2 P3 D1 D2 D3 Z3 SG C E. assert (Z0 : 3 <= IZR z) by (apply (IZR_le 3); exact Z3).
  destruct (const_check prec emax Hp He ltac:(lia) ltac:(lia) ltac:(lia) L e _ 0 (sg * (litR m k * litR m k / IZR z)) C) as [F G].
  { destruct E as [[-> ->]|[-> ->]]; cbn [evalN NumR add sub mul div opp lit lift2 lift1 car]; rewrite litR_int, odiv_some by lra; f_equal; field; lra. }
  split; [exact F|]. pose proof (sq_diff _ _ D1 D2) as S.
  assert (U : IZR (c * 2 ^ (138 - prec)) / sc = IZR c / 4 * u prec).
  { rewrite mult_IZR, sc_bpow. change (2 ^ (138 - prec))%Z with (Zpower radix2 (138 - prec)). rewrite IZR_Zpower by lia. unfold Fcalc.u, Rdiv. rewrite Rmult_assoc, <- bpow_opp, <- bpow_plus. replace (138 - prec + - (140))%Z with (-(2) + - prec)%Z by ring. rewrite bpow_plus. change (bpow radix2 (-(2))) with (/ 4). ring. }
  rewrite U in G. eapply (tri_le _ (sg * (litR m k * litR m k / IZR z)) _ _ (u prec)); [exact G| |lra].
  rewrite <- Rmult_minus_distr_l, Rabs_mult. replace (Rabs sg) with 1 by (destruct SG as [-> | ->]; [rewrite Rabs_R1|rewrite Rabs_left by lra]; lra).
  rewrite Rmult_1_l. replace (litR m k * litR m k / IZR z - PI * PI / IZR z) with ((litR m k * litR m k - PI * PI) * / IZR z) by (field; lra).
  rewrite Rabs_mult, (Rabs_pos_eq (/ IZR z)) by (left; apply Rinv_0_lt_compat; lra).
  apply Rle_trans with (3 * u prec * / 3); [|right; field]. apply Rmult_le_compat; [apply Rabs_pos|left; apply Rinv_0_lt_compat; lra|lra|apply Rinv_le_contravar; lra].
Qed.
Notation y0 := (V 0).
Section X.
Notation N := NumE.
Infix "+" := (add N). Infix "*" := (mul N).
'''
def poly(p,A,nm):
    a=lambda i:f"(aref N (Li2_{p}_{A} N) {i}%nat)"
    if p=='f': return f"{a(0)} + y * {a(1)} + y2 * {a(2)}"
    if p=='d':
        t=f"({a(4)} + y * {a(5)})" if A=='P' else f"({a(4)} + y * {a(5)} + y2 * {a(6)})"
        return f"{a(0)} + y * {a(1)} + y2 * ({a(2)} + y * {a(3)}) + y4 * {t}"
    return f"horner N (sub N y (lit N 25 (-2))) (Li2_{p}_{A} N)"
for p in 'fdlq':
    for A in 'PQ':
        out+=f"Definition x{A}{p} : ex := let y : N := y0 in let y2 := y * y in let y4 := y2 * y2 in {poly(p,A,'')}.\n"
out+="End X.\n"
for p in 'fdlq':
    k1={'f':'k1_f','d':'k1_d'}.get(p)
    k1N=(lambda N: f"{k1} {N}") if k1 else (lambda N: f"k1_h {N} (Li2_{p}_P {N}) (Li2_{p}_Q {N})")
    m,k=PI[p]
    arg='y' if p in 'fd' else '(y - / 4)'
    kk={'f':8,'d':16,'l':35,'q':35}[p]
    out+=f'''
(** ** {p} *)
Lemma split_{p} (N : num) z0 y r s : {k1N('N')} y r s = add N r (div N (mul N (mul N s y) (evalN N (fun i => nth i [y] z0) xP{p})) (evalN N (fun i => nth i [y] z0) xQ{p})).
Proof. reflexivity. Qed.
Lemma evP_{p} y : evalR (fun i => nth i [y] 0) xP{p} = plit P{p} {arg}.
Proof. cbv [xP{p} P{p} Li2_{p}_P plit lit NumLit NumE add mul sub aref nth horner rev app fold_left evalR litp fst snd]. rewrite ?lit25. ring. Qed.
Lemma evQ_{p} y : evalR (fun i => nth i [y] 0) xQ{p} = plit Q{p} {arg}.
Proof. cbv [xQ{p} Q{p} Li2_{p}_Q plit lit NumLit NumE add mul sub aref nth horner rev app fold_left evalR litp fst snd]. rewrite ?lit25. ring. Qed.
Lemma ckP_{p} : checkp {prec[p]} xP{p} (grid 0 (2 ^ (39 - Z.of_nat {n[p]})) (2 ^ {n[p]})) (relb {prec[p]} {cp[p]}) = true.
Proof. vm_compute. reflexivity. Qed.
Lemma ckQ_{p} : checkp {prec[p]} xQ{p} (grid 0 (2 ^ (39 - Z.of_nat {n[p]})) (2 ^ {n[p]})) (relb {prec[p]} {cq[p]}) = true.
Proof. vm_compute. reflexivity. Qed.
'''
    P,E=prec[p],emax[p]
    hp=f"Hp{P} He{P}"
    out+=f'''Section I{p}.
Variable L : libm {P} {E}.
Hypothesis HL : libm_ok (Hp := Hp{P}) (He := He{P}) L.
Notation N := ({B[p]} L).
Lemma u_{p} : u {P} = / 2 ^ {P}.
Proof. unfold Fcalc.u. change (- ({P}))%Z with (Zneg {P}). rewrite bp2. reflexivity. Qed.
Lemma zero_le_{p} : evalR (fun i => nth i [0] 0) xP{p} <= 8 / 5 * evalR (fun i => nth i [0] 0) xQ{p}.
Proof. apply (zero_gen {P} {E} {hp} ltac:(lia) ltac:(lia) ltac:(lia) L); vm_compute; reflexivity. Qed.
Lemma Li2_acc_{p} (x : car N) : is_finite x = true ->
  A {P} {E} (Li2_{p} N x) (ReLi 2 (B2R x)) (bound {P} {E} {Kv[p]} (B2R x)).
Proof.
  rewrite Li2_{p}_shape. pose proof u_{p} as EU.
  assert (DP : Rabs (litR {m} ({k}) - PI) <= {piacc[p]}).
  {{ eapply Rle_trans; [apply PI_lit with (d := {pid[p]})|lra]. p10 {kk}%nat. apply Rabs_le. lra. }}
  assert (CK : forall sg z e c, (3 <= z)%Z -> (sg = 1 \\/ sg = -1) -> check {P} e [[]] (c * 2 ^ (138 - {P})) = true ->
    (e = EDiv (EMul (K {m} ({k})) (K {m} ({k}))) (K z 0) /\\ sg = 1 \\/ e = EDiv (EMul (EOpp (K {m} ({k}))) (K {m} ({k}))) (K z 0) /\\ sg = -1) ->
    A {P} {E} (evalN N (fun _ => B754_zero false) e) (sg * (PI * PI / IZR z)) ((IZR c / 4 + 1) * u {P})).
  {{ intros sg z e c Z3 SG C E. refine (pi_const {P} {E} {hp} L {m} ({k}) _ sg z c e ltac:(lia) ltac:(lia) ltac:(lia) DP _ _ Z3 SG C E); [lra|rewrite EU; lra]. }}
  pose proof (CK (-1) 6%Z (EDiv (EMul (EOpp (K {m} ({k}))) (K {m} ({k}))) (K 6 0)) 34%Z ltac:(lia) ltac:(right; reflexivity) ltac:(vm_compute; reflexivity) ltac:(right; split; reflexivity)) as C6m.
  pose proof (CK (-1) 12%Z (EDiv (EMul (EOpp (K {m} ({k}))) (K {m} ({k}))) (K 12 0)) 17%Z ltac:(lia) ltac:(right; reflexivity) ltac:(vm_compute; reflexivity) ltac:(right; split; reflexivity)) as C12m.
  pose proof (CK 1 6%Z (EDiv (EMul (K {m} ({k})) (K {m} ({k}))) (K 6 0)) 34%Z ltac:(lia) ltac:(left; reflexivity) ltac:(vm_compute; reflexivity) ltac:(left; split; reflexivity)) as C6.
  pose proof (CK 1 3%Z (EDiv (EMul (K {m} ({k})) (K {m} ({k}))) (K 3 0)) 67%Z ltac:(lia) ltac:(left; reflexivity) ltac:(vm_compute; reflexivity) ltac:(left; split; reflexivity)) as C3. clear CK.
  cbn [evalN] in C6m, C12m, C6, C3. assert (U0 : 0 < u {P}) by (rewrite EU; apply Rinv_0_lt_compat, pow_lt; lra).
  apply (Li2_acc {P} {E} {hp} ltac:(lia) ltac:(lia) ltac:(lia) ltac:(lia) ltac:(lia) L HL _ _ {Kv[p]} ltac:(lra)).
  - apply (core_gen {P} {E} {hp} ltac:(lia) ltac:(lia) ltac:(lia) ltac:(lia) L _ xP{p} xQ{p} {n[p]} {cp[p]} {cq[p]} (fun y => y * (plit P{p} {arg} / plit Q{p} {arg})) ({e[p]}) {Kv[p]}).
    + intros y r s. exact (split_{p} N (B754_zero false) y r s).
    + exact ckP_{p}.
    + exact ckQ_{p}.
    + lia.
    + intros y Hy. split; [rewrite evP_{p}, evQ_{p}; reflexivity|exact (proj2 ({p}_ok y Hy))].
    + lra.
    + exact zero_le_{p}.
    + lra.
    + lra.
    + rewrite EU. lra.
    + rewrite EU. lra.
    + rewrite EU. lra.
  - refine (A_weak _ _ _ _ _ _ (eq_ind _ (fun v => A {P} {E} _ v _) C6m _ _) _); [ring|lra].
  - refine (A_weak _ _ _ _ _ _ (eq_ind _ (fun v => A {P} {E} _ v _) C12m _ _) _); [ring|lra].
  - refine (A_weak _ _ _ _ _ _ (eq_ind _ (fun v => A {P} {E} _ v _) C6 _ _) _); [ring|lra].
  - refine (A_weak _ _ _ _ _ _ (eq_ind _ (fun v => A {P} {E} _ v _) C3 _ _) _); [ring|lra].
  - assert (E : B2SF (blit {P} {E} {hp} 5 (-1)) = SpecFloat.S754_finite false {2**(P-1)} (- {P})) by (vm_compute; reflexivity).
    change (lit (NumB {P} {E} {hp} L) 5 (-1)) with (blit {P} {E} {hp} 5 (-1)). split; [rewrite <- is_finite_SF_B2SF, E; reflexivity|]. rewrite <- SF2R_B2SF, E. cbn [SF2R cond_Zopp]. unfold F2R. cbn [Fnum Fexp]. rewrite bpow_neg. change (Z.pow 2 {P}) with {2**P}%Z. rewrite ?opp_IZR. lra.
  - assert (E : B2SF (blit {P} {E} {hp} (-5) (-1)) = SpecFloat.S754_finite true {2**(P-1)} (- {P})) by (vm_compute; reflexivity).
    change (lit (NumB {P} {E} {hp} L) (-5) (-1)) with (blit {P} {E} {hp} (-5) (-1)). split; [rewrite <- is_finite_SF_B2SF, E; reflexivity|]. rewrite <- SF2R_B2SF, E. cbn [SF2R cond_Zopp]. unfold F2R. cbn [Fnum Fexp]. rewrite bpow_neg. change (Z.pow 2 {P}) with {2**P}%Z. rewrite ?opp_IZR. lra.
Qed.
End I{p}.
'''
open('/verif/rocq/theories/Li2_inst.v','w').write(out.replace("Lemma evP_f","Lemma lit25 : litR 25 (-2) = / 4.\nProof. rewrite litR_dec. change (IZR (10 ^ 2)) with 100. lra. Qed.\nLemma evP_f",1))
print(Kv)
