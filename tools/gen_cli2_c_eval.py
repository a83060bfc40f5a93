#!/usr/bin/env python3
# generates rocq/theories/CLi2_c_eval.v : the C functions cli2f, cli2, cli2l in exact arithmetic
o=['''(** * The C functions cli2f, cli2, cli2l in exact arithmetic (generated by tools/gen_cli2_c_eval.py) *)
From Coq Require Import ZArith Reals List Bool Lra Lia Psatz.
From Coquelicot Require Import Coquelicot.
From Verif Require Import Num NumR Spec Eval_R Consts Cplx Ccalc CLi CLi_disc Cpoly CLi_unity CLi_T CLi_ref CLi_region Rest Model_LiR Model_LiC Model_C CLi_code CLi_eval CLi_dev CLi_rest CLi_acc CLi2_acc CLi2_inst CLi_c_eval.
Import ListNotations.
Local Open Scope R_scope.
Section E.
Variable e : R.
Notation N := (NumR e).
Lemma c1p_eq z : c_clog1p N z = clog1p N z. Proof. reflexivity. Qed.
Lemma c1pl_eq z : c_clog1pl N z = clog1p N z. Proof. reflexivity. Qed.
Lemma nrm z : add N (mul N (fst (ofC e z)) (fst (ofC e z))) (mul N (snd (ofC e z)) (snd (ofC e z))) = cnorm N (ofC e z). Proof. reflexivity. Qed.
(** 1 - z and 1 - 1/z directly (cli2f) *)
Lemma f1 (z : C) : z <> RtoC 1 -> clog N (csub_rc N (lit N 1 0) (ofC e z)) = ofC e (Clog (Cminus (RtoC 1) z)).
Proof.
  intros H. rewrite lit_int, ofC_sub_rc, clogC; [reflexivity|]. intros E. apply H. replace z with (Cminus (RtoC 1) (Cminus (RtoC 1) z)) by ring. rewrite E. ring.
Qed.
Lemma f1i (z : C) : z <> RtoC 0 -> z <> RtoC 1 -> clog N (csub_rc N (lit N 1 0) (cdiv_rc N (lit N 1 0) (ofC e z))) = ofC e (Clog (Cminus (RtoC 1) (Cinv z))).
Proof.
  intros H0 H1. rewrite inv1 by exact H0. apply f1. intros E. apply H1. transitivity (Cmult z (Cinv z)); [rewrite E; ring|field; exact H0].
Qed.
Lemma sd_Q (bf : list (Z * Z)) u : (3 <= length bf)%nat ->
  cadd N (ofC e u) (cmul N (ofC e (Cmult u u)) (cadd_rc N (Num.aref N (Sq bf) 0) (cmul N (ofC e u) (cadd_rc N (Num.aref N (Sq bf) 1) (sumdown N 2 (ofC e (Cmult u u)) (Sq bf))))))
  = ofC e (cpev (map rq ((0, 1)%Z :: (1, 1)%Z :: T2 bf)) u).
Proof.
  intros H. destruct bf as [|b0 [|b1 bf]]; [cbn in H; lia|cbn in H; lia|]. rewrite sumdown_ok. cbn [skipn].
  change (Num.aref N (Sq (b0 :: b1 :: bf)) 0) with (Some (rq b0)). change (Num.aref N (Sq (b0 :: b1 :: bf)) 1) with (Some (rq b1)).
  evs. apply (f_equal (ofC e)). unfold T2. cbn [hd tl map cpev spread]. rewrite spread_ok, !rq0, rq1. ring.
Qed.
End E.
''']
P=o.append
for p in 'fdlq':
    F='cLi2_'+p; G='c_cli2_'+p
    P('Lemma %s_bf_eq e : %s_bf (NumR e) = Sq T_%s_bf. Proof. exact (%s_bf_eq e). Qed.'%(G,G,F,F))
    if p in 'fd':
        Q='      unfold T_%s_bf. cbn [Num.aref nth Sq map]. evs. apply (f_equal (ofC e)). unfold T2. cbn [hd tl map cpev spread]. rewrite !rq0, ?rq1, ?rqm1. absq. ring.'%F
    P('Lemma Q_%s e u : '%G + {'f':'''cadd (NumR e) (ofC e u) (cmul (NumR e) (cmul (NumR e) (ofC e u) (ofC e u)) (cadd_rc (NumR e) (aref (NumR e) (Sq T_cLi2_f_bf) 0) (cmul (NumR e) (ofC e u) (cadd_rc (NumR e) (aref (NumR e) (Sq T_cLi2_f_bf) 1) (cmul (NumR e) (cmul (NumR e) (ofC e u) (ofC e u)) (cadd_rc (NumR e) (aref (NumR e) (Sq T_cLi2_f_bf) 2) (cmul_cr (NumR e) (cmul (NumR e) (ofC e u) (ofC e u)) (aref (NumR e) (Sq T_cLi2_f_bf) 3))))))))''',
 'd':'''let N := NumR e in let u' := ofC e u in let u2 := cmul N u' u' in let u4 := cmul N u2 u2 in let c := Sq T_cLi2_d_bf in
  cadd N u' (cmul N u2 (cadd_rc N (aref N c 0) (cmul N u' (cadd_rc N (aref N c 1) (cmul N u2 (cadd N (cadd N (cadd_rc N (aref N c 2) (cmul_cr N u2 (aref N c 3))) (cmul N u4 (cadd_rc N (aref N c 4) (cmul_cr N u2 (aref N c 5))))) (cmul N (cmul N u4 u4) (cadd N (cadd_rc N (aref N c 6) (cmul_cr N u2 (aref N c 7))) (cmul N u4 (cadd_rc N (aref N c 8) (cmul_cr N u2 (aref N c 9))))))))))))'''}.get(p,'''let N := NumR e in let c := Sq T_%s_bf in let u2 := cmul N (ofC e u) (ofC e u) in
  cadd N (ofC e u) (cmul N u2 (cadd_rc N (Num.aref N c 0) (cmul N (ofC e u) (cadd_rc N (Num.aref N c 1) (sumdown N 2 u2 c)))))'''%F)
      + '\n  = ofC e (cpev (map rq ((0, 1)%%Z :: (1, 1)%%Z :: T2 T_%s_bf)) u).'%F)
    if p in 'fd':
        P('Proof.\n  cbv zeta. unfold T_%s_bf. cbn [Num.aref nth Sq map]. evs. apply (f_equal (ofC e)). unfold T2. cbn [hd tl map cpev spread]. rewrite !rq0, ?rq1. absq. ring.\nQed.'%F)
    else:
        P('Proof. cbv zeta. rewrite ofC_mul. apply sd_Q. unfold T_%s_bf; cbn [length]; lia. Qed.'%F)
    if p=='f': inv='rewrite f1i, ofC_opp by assumption. change (Copp (Clog (Cminus (RtoC 1) (Cinv z)))) with (U (Cinv z)).'; op='rewrite f1, ofC_opp by assumption. change (Copp (Clog (Cminus (RtoC 1) z))) with (U z).'; lg='rewrite (f1 e z ZO).'
    else: inv='rewrite inv1p by assumption.'; op='rewrite opp1p by assumption.'; lg='rewrite b2_log1 by exact H.'
    eq={'f':'','d':'rewrite ?c1p_eq.','l':'rewrite ?c1pl_eq.','q':'rewrite ?c1pl_eq.'}[p]
    P('''(* src/c/Li2.c *)
Lemma ev_%(G)s e z : snd z <> 0 -> %(G)s (NumR e) (ofC e z) = ofC e (c2val e (rq T_%(F)s_pi) T_%(F)s_bf z).
Proof.
  intros H. unfold %(G)s, c2val. destruct (nonreal e _ H) as [ZN EQ]. pose proof (nonreal1 z H) as ZO. cbv zeta. rewrite EQ. rewrite %(G)s_bf_eq. rewrite nrm. rewrite b2_eps, b2_half, b2_one, b2_two. %(eq)s
  match goal with |- context [lit (NumR e) ?m (Z.neg ?k)] => change (lit (NumR e) m (Z.neg k)) with (Some (rq T_%(F)s_pi)) end. rewrite b2_pi.
  pose proof (Q_%(G)s e) as QQ. cbv zeta in QQ.
  unfold Rltb, Rleb. destruct (Rlt_dec (Cmod z * Cmod z) e); [apply b2_tiny|]. destruct (Rle_dec (fst z) (/ 2)).
  - destruct (Rlt_dec 1 (Cmod z * Cmod z)).
    + %(inv)s rewrite b2_log, QQ, b2_rest by exact H. apply sgm.
    + %(op)s rewrite QQ. apply sg1.
  - destruct (Rle_dec (Cmod z * Cmod z) (2 * fst z)).
    + %(lg)s rewrite (ofC_log e z ZN), ofC_opp, QQ. rewrite ofC_mul, ofC_add_cr. apply sgm.
    + %(inv)s rewrite b2_log, QQ, b2_rest by exact H. apply sgm.
Qed.'''%dict(F=F,G=G,inv=inv,op=op,lg=lg,eq=eq))
open('/verif/rocq/theories/CLi2_c_eval.v','w').write('\n'.join(o)+'\n')
