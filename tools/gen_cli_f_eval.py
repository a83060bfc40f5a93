#!/usr/bin/env python3
# generates rocq/theories/CLi_f_eval.v : the Fortran functions cdli3..cdli6 in exact arithmetic
import re
o=[]; P=o.append
P('''(** * The Fortran functions cdli3 .. cdli6 in exact arithmetic (generated by tools/gen_cli_f_eval.py) *)
From Coq Require Import ZArith Reals List Bool Lra Lia Psatz.
From Coquelicot Require Import Coquelicot.
From Verif Require Import Num NumR Spec Eval_R Proof_Horner Cplx Ccalc CLi CLi_disc Cpoly CLi_unity CLi_T CLi_region Clausen Rest Model_LiR Model_LiC Model_F CLi_code CLi_eval CLi_c_eval.
Import ListNotations.
Local Open Scope R_scope.

(** like [cval], with the inversion remainder given by its coefficient list *)
Definition cvalL (n : nat) (Ul Tl : list (Z * Z)) (p : R) (rl : list R) (sg : R) (z : C) : C :=
  if Rlt_dec (Cmod (Clog z) * Cmod (Clog z)) 1 then Cplus (cpev (map rq Ul) (Clog z)) (Lm n (Clog z))
  else if Rle_dec (Cmod z) 1 then cpev (map rq ((0, 1)%Z :: Tl)) (U z)
  else Cplus (cpev rl (lmz p z)) (Cmult (RtoC sg) (cpev (map rq ((0, 1)%Z :: Tl)) (U (Cinv z)))).
Section E.
Variable e : R.
Notation N := (NumR e).
Lemma fpl (w : C) : w <> RtoC 0 -> (snd w <> 0 \\/ 0 < fst w) -> fst (f_pos_cdlog N (ofC e w)) = ofC e (Clog w).
Proof.
  intros W0 H. rewrite <- (pos_gen e w (lit N 314159265358979324 (-17)) W0 H). unfold f_pos_cdlog. cbv zeta.
  destruct (eqb N (snd (ofC e w)) (lit N 0 0) && ltb N (lit N 0 0) (fst (ofC e w)))%bool; [reflexivity|]. destruct (eqb N (snd (ofC e w)) (lit N 0 0)); reflexivity.
Qed.
Lemma fpn (w : C) : snd w = 0 -> fst w < 0 -> fst (f_pos_cdlog N (ofC e w)) = ofC e (Cplus (Clog w) (0, rq (314159265358979324, 10 ^ 17)%Z - PI)).
Proof.
  intros W0 H. rewrite <- (neg_gen e w (314159265358979324, 10 ^ 17)%Z W0 H). change (Some (rq (314159265358979324, 10 ^ 17)%Z)) with (lit N 314159265358979324 (-17)). unfold f_pos_cdlog. cbv zeta.
  destruct (eqb N (snd (ofC e w)) (lit N 0 0) && ltb N (lit N 0 0) (fst (ofC e w)))%bool; [reflexivity|]. destruct (eqb N (snd (ofC e w)) (lit N 0 0)); reflexivity.
Qed.
Lemma fopp1 (z : C) : cok z -> copp N (fst (f_pos_cdlog N (csub_rc N (lit N 1 0) (ofC e z)))) = ofC e (U z).
Proof. intros H. destruct (cok_1 z H) as [A B]. rewrite lit_int, ofC_sub_rc, fpl, ofC_opp by assumption. reflexivity. Qed.
Lemma oopp a : opp N (Some a) = Some (- a). Proof. reflexivity. Qed.
Lemma nfrac a b : (b <> 0)%Z -> opp N (div N (lit N a 0) (lit N b 0)) = Some (rq (- a, b)%Z).
Proof. intros H. rewrite frac by exact H. rewrite oopp. apply (f_equal (@Some R)). unfold rq. cbn [fst snd]. rewrite opp_IZR. unfold Rdiv. ring. Qed.
End E.
Arguments oopp {e}. Arguments nfrac {e}.
Ltac tabf := repeat (apply f_equal2; [first [reflexivity | apply lit0 | apply nfrac; discriminate | apply frac; discriminate]|]); reflexivity.
Ltac evf := repeat first [rewrite frac by discriminate | rewrite lit0 | rewrite litneg | rewrite omul | rewrite odivq by discriminate | rewrite oopp
  | rewrite ofC_mul | rewrite ofC_add | rewrite ofC_sub | rewrite ofC_opp | rewrite ofC_mul_rc | rewrite ofC_mul_cr | rewrite ofC_add_rc | rewrite ofC_add_cr
  | rewrite ofC_sub_rc | rewrite ofC_sub_cr | rewrite cdivq by discriminate | rewrite spread_ok].
''')
ev=open('/verif/rocq/theories/CLi_eval.v').read()
mf=open('/verif/rocq/theories/Model_F.v').read()
RL={3:'[0; - zeta2; 0; - / 6]',
    4:'[- (7 * PI4 / 360); 0; - (30 * PI2 / 360); 0; - (15 / 360)]',
    5:'[0; - (7 * PI4 / 360); 0; - (10 * PI2 / 360); 0; - (3 / 360)]',
    6:'[- (31 * PI6 / 15120); 0; - (7 * PI4 / 720); 0; - (PI2 / 144); 0; - / 720]'}
for n in (3,4,5,6):
    F='cLi%d_d'%n; G='f_cdli%d'%n
    body=re.search(r'Definition %s \(z.*?\n\n'%G,mf,re.S)[0]
    lits={k:(a,b) for k,a,b in re.findall(r'let (\w+) := lit N (\d+) \(-(\d+)\) in',body)}
    sg='1' if n%2 else '(-1)'
    deleg=n<=4
    HY='snd z <> 0' if deleg else 'ordinary z'
    rl=RL[n]
    for k in ('zeta2','PI2','PI4','PI6'):
        if k in rl: rl=rl.replace(k,'rq (%s, 10 ^ %s)%%Z'%lits[k])
    pi=lits['PI']; assert pi==('31415926535897932','16')
    if deleg:
        H0='destruct (nonreal e z H) as [ZN EQ]. pose proof (nonreal1 z H) as ZO.'; H1='rewrite skip2 by exact EQ.'
    else:
        H0='destruct (ord_ne z H) as [ZN ZO]. pose proof (ord_tests e z H) as TS.'; H1='rewrite skip3 by exact TS.'
    for t in ('bf','cs'):
        P('Lemma %s_%s_eq e : %s_%s (NumR e) = Sq T_%s_%s. Proof. unfold %s_%s, Sq, T_%s_%s. cbn [map]. tabf. Qed.'%(G,t,G,t,F,t,G,t,F,t))
    P('(* src/fortran/Li%d.f90 *)'%n)
    P('Definition RL_%s : list R := %s.'%(G,rl))
    P('Lemma ev_%s e z : %s -> cokx z ->'%(G,HY))
    P('  %s (NumR e) (ofC e z) = (ofC e (cvalL %d (T_%s_hd ++ spread T_%s_cs) T_%s_bf (rq T_%s_pi) RL_%s %s z), ofC e z).'%(G,n,F,F,F,F,G,sg))
    P('Proof.\n  intros H CK. %s unfold %s, cvalL. cbv beta zeta. %s rewrite hyp, at2, branch_log by exact ZN. rewrite ofC_arg, branch_unity. unfold Rltb. destruct (Rlt_dec (Cmod (Clog z) * Cmod (Clog z)) 1) as [HU|HU].'%(H0,G,H1))
    P('  - apply f_equal2; [|reflexivity]. match goal with |- context [@pair ?A ?B (Some (ln (Cmod z))) (Some (Carg z))] => change (@pair A B (Some (ln (Cmod z))) (Some (Carg z))) with (ofC e (Clog z)) end.')
    P('    assert (W0 : Copp (Clog z) <> RtoC 0) by (apply Copp_ne, Clog_n0; assumption). pose proof (cok_u z (cokx_u z CK HU) ZN) as W1.')
    P('    rewrite Lm_Lc by lia. rewrite %s_cs_eq. cbn [Nat.sub Lc]. set (w := Clog z) in *. rewrite ofC_opp, fpl by assumption.'%G)
    P('    unfold T_%s_cs, T_%s_hd. cbn [Num.aref nth Sq map app spread]. rewrite ?nfrac by discriminate. evf. apply (f_equal (ofC e)). cbn [cpev]. rewrite !rq0. cbn [Z.opp].'%(F,F))
    if n==3: P('    replace (rq (-1, 12)%Z) with (- (/ IZR 12)) by (unfold rq; cbn [fst snd]; field). rewrite RtoC_opp.')
    P('    generalize (Clog (Copp w)); intros lw. absq. cbn [Cpow]. change (RtoC 0) with (RtoC 0). ring.')
    P('  - rewrite ofC_abs, branch_le1. unfold Rleb. destruct (Rle_dec (Cmod z) 1) as [H1|H1].')
    def tail(uu):
        P('      set (u := U %s).'%uu)
        P('      unfold T_%s_bf. cbn [Num.aref nth Sq map]. evf. cbn [cpev]. rewrite rq0.'%F)
    P('    + apply f_equal2; [|reflexivity]. rewrite fopp1 by (exact (cokx_1 z CK H1)). rewrite %s_bf_eq. rewrite ?(lit_int _ 0). match goal with |- context [@pair ?A ?B (Some 0) (Some 0)] => change (@pair A B (Some 0) (Some 0)) with (ofC e (RtoC 0)) end.'%G)
    tail('z')
    if n%2==0: P('      rewrite ?rq1.')
    P('      apply (f_equal (ofC e)). absq. ring.')
    P('    + apply f_equal2; [|reflexivity]. rewrite inv1 by exact ZN. rewrite fopp1 by (apply cokx_inv; [exact CK|lra]). rewrite %s_bf_eq. rewrite branch_pos. rewrite (litneg e 31415926535897932). rewrite lmz_ok. fold (rq T_%s_pi).'%(G,F))
    tail('(Cinv z)')
    if n%2==0: P('      rewrite ?rqm1, ?Cm1.')
    P('      apply (f_equal (ofC e)). unfold T_%s_pi, RL_%s. cbn [cpev]. set (Lz := lmz _ z).'%(F,G))
    P('''      repeat match goal with |- context [rq (?a, 1%Z)] => replace (rq (a, 1%Z)) with (IZR a) by (unfold rq; cbn [fst snd]; field) end.
      unfold Rdiv. rewrite ?RtoC_opp, ?RtoC_mult, ?RtoC_opp, ?RtoC_mult, ?RtoC_opp. absq.''')
    P('      ring.')
    P('Qed.')
    if not deleg:
        P('(** on the cut, 1 < x < e *)')
        P('Lemma evx_%s e z : snd z = 0 -> 1 < fst z -> Cmod (Clog z) * Cmod (Clog z) < 1 ->'%G)
        P('  %s (NumR e) (ofC e z) = (ofC e (Cplus (cpev (map rq (T_%s_hd ++ spread T_%s_cs)) (Clog z)) (Cmult (Cpow (Clog z) %d) (Lcl %d (Cplus (Clog (Copp (Clog z))) (0, rq (314159265358979324, 10 ^ 17)%%Z - PI))))), ofC e z).'%(G,F,F,n-1,n))
        P('Proof.\n  intros S0 X1 HU. assert (H : %s) by (right; repeat split; lra). %s unfold %s. cbv beta zeta. %s rewrite hyp, at2, branch_log by exact ZN. rewrite ofC_arg, branch_unity. unfold Rltb. destruct (Rlt_dec (Cmod (Clog z) * Cmod (Clog z)) 1) as [HU2|HU2]; [|contradiction].'%(HY,H0,G,H1))
        P('  apply f_equal2; [|reflexivity]. match goal with |- context [@pair ?A ?B (Some (ln (Cmod z))) (Some (Carg z))] => change (@pair A B (Some (ln (Cmod z))) (Some (Carg z))) with (ofC e (Clog z)) end.')
        P('    destruct (cut_u z S0 X1) as [W0 W1].')
        P('    rewrite %s_cs_eq. cbn [Lcl]. set (w := Clog z) in *. rewrite ofC_opp, fpn by assumption. set (lwp := Cplus (Clog (Copp w)) _).'%G)
        P('    unfold T_%s_cs, T_%s_hd. cbn [Num.aref nth Sq map app spread]. rewrite ?nfrac by discriminate. evf. apply (f_equal (ofC e)). cbn [cpev]. rewrite !rq0. cbn [Z.opp].'%(F,F))
        if n==3: P('    replace (rq (-1, 12)%Z) with (- (/ IZR 12)) by (unfold rq; cbn [fst snd]; field). rewrite RtoC_opp.')
        P('    clearbody lwp. absq. cbn [Cpow]. change (RtoC 0) with (RtoC 0). ring.')
        P('Qed.')
open('/verif/rocq/theories/CLi_f_eval.v','w').write('\n'.join(o)+'\n')
