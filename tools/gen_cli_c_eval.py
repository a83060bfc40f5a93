#!/usr/bin/env python3
# generates rocq/theories/CLi_c_eval.v : the C functions cli3..cli6 (all precisions) in exact arithmetic
import re
o=[]; P=o.append
P('''(** * The C functions cli3 .. cli6 in exact arithmetic (generated by tools/gen_cli_c_eval.py) *)
From Coq Require Import ZArith Reals List Bool Lra Lia Psatz.
From Coquelicot Require Import Coquelicot.
From Verif Require Import Num NumR Spec Eval_R Proof_Horner Cplx Ccalc CLi CLi_disc Cpoly CLi_unity CLi_T CLi_region Clausen Rest Model_LiR Model_LiC Model_C CLi_code CLi_eval.
Import ListNotations.
Local Open Scope R_scope.

(** off the real axis, or on it to the left of 1 *)
Definition cok (z : C) : Prop := snd z <> 0 \\/ (snd z = 0 /\\ fst z < 1).
(** ... or on the cut, away from 1 *)
Definition cokx (z : C) : Prop := cok z \\/ (snd z = 0 /\\ 1 < fst z /\\ ~ Cmod (Clog z) * Cmod (Clog z) < 1).
(** the logarithmic coefficient [Lc] with the code's value for Log(-w) *)
Definition Lcl (n : nat) (l : C) : C := match n with
  | 3 => Cmult (RtoC (rq (25, 10 ^ 2)%Z)) (Cminus (RtoC (rq (3, 1)%Z)) (Cmult (RtoC (rq (2, 1)%Z)) l))
  | 4 => Cmult (RtoC (/ IZR 6)) (Cminus (RtoC (rq (11, 6)%Z)) l)
  | 5 => Cmult (RtoC (/ IZR 24)) (Cminus (RtoC (rq (25, 12)%Z)) l)
  | _ => Cmult (RtoC (/ IZR 120)) (Cminus (RtoC (rq (137, 60)%Z)) l)
  end%nat.
Section E.
Variable e : R.
Notation N := (NumR e).
Lemma nlogC (x : R) : 0 < x -> nlog N (Some x) = Some (ln x). Proof. intros H. cbn [nlog NumR]. apply olog_some, H. Qed.
Lemma clogC (w : C) : w <> RtoC 0 -> clog N (ofC e w) = ofC e (Clog w).
Proof. intros H. unfold clog. rewrite branch_log by exact H. rewrite ofC_arg. reflexivity. Qed.
Lemma pos_gen (w : C) (p : car N) : w <> RtoC 0 -> (snd w <> 0 \\/ 0 < fst w) ->
  (if (eqb N (snd (ofC e w)) (lit N 0 0) && ltb N (lit N 0 0) (fst (ofC e w)))%bool then (nlog N (fst (ofC e w)), lit N 0 0)
   else if eqb N (snd (ofC e w)) (lit N 0 0) then (nlog N (opp N (fst (ofC e w))), p) else clog N (ofC e w)) = ofC e (Clog w).
Proof.
  intros W0 H. rewrite !lit_int. cbn [ofC fst snd eqb ltb NumR ocmp]. destruct (Req_EM_T (snd w) 0) as [E|E].
  - assert (P : 0 < fst w) by (destruct H; [contradiction|assumption]). rewrite (Reqb_true (snd w) 0) by exact E. unfold Rltb. destruct (Rlt_dec 0 (fst w)); [|contradiction].
    cbn [andb]. assert (W : w = RtoC (fst w)) by (destruct w as [a b]; cbn in *; subst; reflexivity).
    assert (LG : Clog w = RtoC (ln (fst w))) by (rewrite W at 1; apply Clog_pos; exact P). rewrite LG. unfold ofC. cbn [fst snd RtoC]. f_equal. cbn [nlog NumR]. apply olog_some, P.
  - rewrite (Reqb_false (snd w) 0) by exact E. cbn [andb]. exact (clogC w W0).
Qed.
Lemma cpl (w : C) : w <> RtoC 0 -> (snd w <> 0 \\/ 0 < fst w) -> c_pos_clog N (ofC e w) = ofC e (Clog w).
Proof. intros W0 H. unfold c_pos_clog. cbv zeta. apply pos_gen; assumption. Qed.
Lemma cpll (w : C) : w <> RtoC 0 -> (snd w <> 0 \\/ 0 < fst w) -> c_pos_clogl N (ofC e w) = ofC e (Clog w).
Proof. intros W0 H. unfold c_pos_clogl. cbv zeta. apply pos_gen; assumption. Qed.
Lemma cok_u (z : C) : cok z -> z <> RtoC 0 -> snd (Copp (Clog z)) <> 0 \\/ 0 < fst (Copp (Clog z)).
Proof.
  intros [H|[S0 H]] Z0.
  - left. pose proof (Clog_im_neq z H). unfold Copp. cbn [snd]. lra.
  - assert (W : z = RtoC (fst z)) by (destruct z as [a b]; cbn in *; subst; reflexivity). destruct (Rlt_dec 0 (fst z)) as [P|P].
    + right. rewrite W, Clog_pos by exact P. unfold Copp, RtoC. cbn [fst]. assert (ln (fst z) < 0) by (rewrite <- ln_1; apply ln_increasing; lra). lra.
    + left. assert (fst z <> 0) by (intros Q; apply Z0; rewrite W, Q; reflexivity). unfold Clog, Copp, Carg, atan2R. cbn [snd]. rewrite S0.
      destruct (Rlt_dec 0 (fst z)); [contradiction|]. destruct (Rlt_dec (fst z) 0); [|lra]. destruct (Rle_dec 0 0); [|lra].
      replace (0 / fst z) with 0 by (field; assumption). rewrite atan_0. pose proof PI_RGT_0. lra.
Qed.
Lemma cok_1 (z : C) : cok z -> Cminus (RtoC 1) z <> RtoC 0 /\\ (snd (Cminus (RtoC 1) z) <> 0 \\/ 0 < fst (Cminus (RtoC 1) z)).
Proof.
  intros H. assert (A : snd (Cminus (RtoC 1) z) <> 0 \\/ 0 < fst (Cminus (RtoC 1) z)) by (unfold Cminus, Cplus, Copp, RtoC; cbn [fst snd]; destruct H as [H|[_ H]]; [left|right]; lra).
  split; [|exact A]. intros E. rewrite E in A. cbn in A. lra.
Qed.
Lemma cok_inv (z : C) : cok z -> 1 < Cmod z -> cok (Cinv z).
Proof.
  intros [H|[S0 H]] M; [left; apply Cinv_im_ne, H|]. assert (W : z = RtoC (fst z)) by (destruct z as [a b]; cbn in *; subst; reflexivity).
  rewrite W, Cmod_R in M. assert (N1 : fst z < -1) by (unfold Rabs in M; destruct (Rcase_abs (fst z)); lra).
  right. rewrite W. rewrite <- RtoC_inv by lra. unfold RtoC. cbn [fst snd]. split; [reflexivity|]. assert (/ fst z < 0) by (apply Rinv_lt_0_compat; lra). lra.
Qed.
Lemma cokx_u (z : C) : cokx z -> Cmod (Clog z) * Cmod (Clog z) < 1 -> cok z. Proof. intros [H|(_ & _ & H)] L; [exact H|contradiction]. Qed.
Lemma cokx_1 (z : C) : cokx z -> Cmod z <= 1 -> cok z.
Proof.
  intros [H|(S0 & H & _)] L; [exact H|]. assert (W : z = RtoC (fst z)) by (destruct z as [a b]; cbn in *; subst; reflexivity). rewrite W, Cmod_R, Rabs_pos_eq in L by lra. lra.
Qed.
Lemma cokx_inv (z : C) : cokx z -> 1 < Cmod z -> cok (Cinv z).
Proof.
  intros [H|(S0 & H & _)] L; [apply cok_inv; assumption|]. assert (W : z = RtoC (fst z)) by (destruct z as [a b]; cbn in *; subst; reflexivity). right. rewrite W, <- RtoC_inv by lra. unfold RtoC. cbn [fst snd].
  split; [reflexivity|]. rewrite <- Rinv_1. apply Rinv_lt_contravar; lra.
Qed.
(** on the negative axis the C code uses a literal for pi *)
Lemma neg_gen (w : C) (p : Z * Z) : snd w = 0 -> fst w < 0 ->
  (if (eqb N (snd (ofC e w)) (lit N 0 0) && ltb N (lit N 0 0) (fst (ofC e w)))%bool then (nlog N (fst (ofC e w)), lit N 0 0)
   else if eqb N (snd (ofC e w)) (lit N 0 0) then (nlog N (opp N (fst (ofC e w))), Some (rq p)) else clog N (ofC e w)) = ofC e (Cplus (Clog w) (0, rq p - PI)).
Proof.
  intros E H. assert (L : Cplus (Clog w) (0, rq p - PI) = (ln (- fst w), rq p)).
  { assert (W : w = RtoC (fst w)) by (destruct w as [a b]; cbn in *; subst; reflexivity). rewrite W at 1. unfold Clog, Carg, atan2R. rewrite Cmod_R, Rabs_left by exact H. cbn [fst snd RtoC].
    destruct (Rlt_dec 0 (fst w)); [lra|]. destruct (Rlt_dec (fst w) 0); [|lra]. destruct (Rle_dec 0 0); [|lra]. replace (0 / fst w) with 0 by (field; lra). rewrite atan_0. unfold Cplus. cbn [fst snd]. f_equal; ring. }
  rewrite L, !lit_int. cbn [ofC fst snd eqb ltb NumR ocmp]. rewrite (Reqb_true (snd w) 0) by exact E. unfold Rltb. destruct (Rlt_dec 0 (fst w)); [lra|].
  cbn [andb]. unfold ofC. cbn [fst snd]. f_equal. exact (nlogC (- fst w) ltac:(lra)).
Qed.
Lemma cpn (w : C) : snd w = 0 -> fst w < 0 -> c_pos_clog N (ofC e w) = ofC e (Cplus (Clog w) (0, rq (31415926535897932, 10 ^ 16)%Z - PI)).
Proof. intros W0 H. unfold c_pos_clog. cbv zeta. exact (neg_gen w (31415926535897932, 10 ^ 16)%Z W0 H). Qed.
Lemma cpnl (w : C) : snd w = 0 -> fst w < 0 -> c_pos_clogl N (ofC e w) = ofC e (Cplus (Clog w) (0, rq (314159265358979323846264338327950288, 10 ^ 35)%Z - PI)).
Proof. intros W0 H. unfold c_pos_clogl. cbv zeta. exact (neg_gen w (314159265358979323846264338327950288, 10 ^ 35)%Z W0 H). Qed.
Lemma cut_u (z : C) : snd z = 0 -> 1 < fst z -> snd (Copp (Clog z)) = 0 /\\ fst (Copp (Clog z)) < 0.
Proof.
  intros S0 H. assert (W : z = RtoC (fst z)) by (destruct z as [a b]; cbn in *; subst; reflexivity). rewrite W, Clog_pos by lra. unfold Copp, RtoC. cbn [fst snd]. split; [ring|].
  assert (0 < ln (fst z)) by (rewrite <- ln_1; apply ln_increasing; lra). lra.
Qed.
Lemma copp1 (z : C) : cok z -> copp N (c_pos_clog N (csub_rc N (lit N 1 0) (ofC e z))) = ofC e (U z).
Proof. intros H. destruct (cok_1 z H) as [A B]. rewrite lit_int, ofC_sub_rc, cpl, ofC_opp by assumption. reflexivity. Qed.
Lemma copp1l (z : C) : cok z -> copp N (c_pos_clogl N (csub_rc N (lit N 1 0) (ofC e z))) = ofC e (U z).
Proof. intros H. destruct (cok_1 z H) as [A B]. rewrite lit_int, ofC_sub_rc, cpll, ofC_opp by assumption. reflexivity. Qed.
Lemma inv1 (z : C) : z <> RtoC 0 -> cdiv_rc N (lit N 1 0) (ofC e z) = ofC e (Cinv z).
Proof. intros Z0. rewrite lit_int, ofC_div_rc by exact Z0. apply (f_equal (ofC e)). unfold Cdiv. ring. Qed.
Lemma sumdown_ok k (u : C) (l : list (Z * Z)) : sumdown N k (ofC e u) (Sq l) = ofC e (Cmult u (cpev (map rq (skipn k l)) u)).
Proof.
  unfold sumdown. assert (E : @skipn (car N) k (Sq l) = Sq (skipn k l)) by (unfold Sq; exact (skipn_map (fun p => Some (rq p)) k l)). rewrite E. generalize (skipn k l). intros m.
  induction m as [|c m IH].
  - cbn [Sq map fold_right cpev]. rewrite lit_int. transitivity (ofC e (RtoC 0)); [reflexivity|]. apply (f_equal (ofC e)). ring.
  - cbn [Sq map fold_right]. fold (Sq m). rewrite IH, ofC_add_rc, ofC_mul. reflexivity.
Qed.
Lemma hyp (z : C) : nhypot N (fst (ofC e z)) (snd (ofC e z)) = cabs N (ofC e z). Proof. reflexivity. Qed.
Lemma at2 (z : C) : natan2 N (snd (ofC e z)) (fst (ofC e z)) = carg N (ofC e z). Proof. reflexivity. Qed.
End E.
''')
ev=open('/verif/rocq/theories/CLi_eval.v').read()
for n in (3,4,5,6):
    for p in 'dlq':
        F='cLi%d_%s'%(n,p); G='c_cli%d_%s'%(n,p)
        m=re.search(r'Lemma ev_%s e z : .*\n.*\(rq T_%s_pi\) (\(rq .*?%%Z\)) (\S+) z\)\.'%(F,F),ev); z2,sg=m[1],m[2]
        pi=re.search(r'Definition T_%s_pi : Z \* Z := \((\d+),'%F,ev)[1]
        deleg=(p=='d' and n<=4)
        HY='snd z <> 0' if deleg else 'ordinary3 z' if n==3 else 'ordinary z'
        l='' if p=='d' else 'l'
        if deleg:
            H0='destruct (nonreal e z H) as [ZN EQ]. pose proof (nonreal1 z H) as ZO.'; H1='rewrite skip2 by exact EQ.'
        else:
            H0='destruct (ord_ne z (ord3 z H)) as [ZN ZO]. pose proof (ord3_tests e z H) as TS.' if n==3 else 'destruct (ord_ne z H) as [ZN ZO]. pose proof (ord_tests e z H) as TS.'
            H1='rewrite skip4 by exact TS.' if n==3 else 'rewrite skip3 by exact TS.'
        for t in ('bf','cs'):
            P('Lemma %s_%s_eq e : %s_%s (NumR e) = Sq T_%s_%s. Proof. exact (%s_%s_eq e). Qed.'%(G,t,G,t,F,t,F,t))
        P('(* src/c/Li%d.c *)'%n)
        P('Lemma ev_%s e z : %s -> cokx z ->'%(G,HY))
        P('  %s (NumR e) (ofC e z) = ofC e (cval %d (T_%s_hd ++ spread T_%s_cs) T_%s_bf (rq T_%s_pi) %s %s z).'%(G,n,F,F,F,F,z2,sg))
        P('Proof.\n  intros H CK. %s unfold %s, cval. cbv beta zeta. %s rewrite hyp, at2, branch_log by exact ZN. rewrite ofC_arg, branch_unity. unfold Rltb. destruct (Rlt_dec (Cmod (Clog z) * Cmod (Clog z)) 1) as [HU|HU].'%(H0,G,H1))
        P('  - change (@pair (car (NumR e)) (car (NumR e)) (Some (ln (Cmod z))) (Some (Carg z))) with (ofC e (Clog z)).')
        P('    assert (W0 : Copp (Clog z) <> RtoC 0) by (apply Copp_ne, Clog_n0; assumption). pose proof (cok_u z (cokx_u z CK HU) ZN) as W1.')
        P('    rewrite Lm_Lc by lia. rewrite %s_cs_eq. cbn [Nat.sub Lc]. set (w := Clog z) in *. rewrite ofC_opp, cpl%s by assumption.'%(G,l))
        if p=='d':
            P('    unfold T_%s_cs, T_%s_hd. cbn [Num.aref nth Sq map app spread]. evs. apply (f_equal (ofC e)). cbn [cpev]. rewrite !rq0.'%(F,F))
        elif n==6:
            P('    rewrite ofC_mul, sumdown_ok. unfold T_%s_cs, T_%s_hd. cbn [Num.aref nth Sq map app spread skipn]. evs. apply (f_equal (ofC e)). cbn [cpev]. rewrite !rq0.'%(F,F))
        else:
            P('    rewrite ofC_mul, sumdown_ok. cbn [skipn]. unfold T_%s_hd. cbn [map app]. evs. apply (f_equal (ofC e)). cbn [cpev]. rewrite !rq0, ?spread_ok.'%F)
            P('    generalize (cpev (map rq T_%s_cs) (Cmult w w)); intros X.'%F)
        if n==3: P('    replace (rq (-1, 12)%Z) with (- (/ IZR 12)) by (unfold rq; cbn [fst snd]; field). rewrite RtoC_opp.')
        P('    generalize (Clog (Copp w)); intros lw. absq. cbn [Cpow]. change (RtoC 0) with (RtoC 0). ring.')
        P('  - rewrite ofC_abs, branch_le1. unfold Rleb. destruct (Rle_dec (Cmod z) 1) as [H1|H1].')
        def tail(uu):
            P('      set (u := U %s).'%uu)
            if p=='d':
                P('      unfold T_%s_bf. cbn [Num.aref nth Sq map]. evs. cbn [cpev]. rewrite rq0.'%F)
            else:
                P('      rewrite sumdown_ok. cbn [skipn]. evs. rewrite map_cons. cbn [cpev]. rewrite rq0. generalize (cpev (map rq T_%s_bf) u); intros X.'%F)
        P('    + rewrite copp1%s by (exact (cokx_1 z CK H1)). rewrite %s_bf_eq. rewrite ?(lit_int _ 0). match goal with |- context [@pair ?A ?B (Some 0) (Some 0)] => change (@pair A B (Some 0) (Some 0)) with (ofC e (RtoC 0)) end.'%(l,G))
        tail('z')
        if n%2==0: P('      rewrite ?rq1.')
        P('      apply (f_equal (ofC e)). absq. ring.')
        P('    + rewrite inv1 by exact ZN. rewrite copp1%s by (apply cokx_inv; [exact CK|lra]). rewrite %s_bf_eq. rewrite branch_pos. rewrite (litneg e %s). rewrite lmz_ok. fold (rq T_%s_pi).'%(l,G,pi,F))
        tail('(Cinv z)')
        if n%2==0: P('      rewrite ?rqm1, ?Cm1.')
        P('      apply (f_equal (ofC e)). unfold T_%s_pi. cbn [restq]. set (Lz := lmz _ z).'%F)
        P('      absq. ring.')
        P('Qed.')
        if not deleg:
            PIL='(31415926535897932, 10 ^ 16)%Z' if p=='d' else '(314159265358979323846264338327950288, 10 ^ 35)%Z'
            P('(** on the cut, 1 < x < e *)')
            P('Lemma evx_%s e z : snd z = 0 -> 1 < fst z -> Cmod (Clog z) * Cmod (Clog z) < 1 ->'%G)
            P('  %s (NumR e) (ofC e z) = ofC e (Cplus (cpev (map rq (T_%s_hd ++ spread T_%s_cs)) (Clog z)) (Cmult (Cpow (Clog z) %d) (Lcl %d (Cplus (Clog (Copp (Clog z))) (0, rq %s - PI))))).'%(G,F,F,n-1,n,PIL))
            P('Proof.\n  intros S0 X1 HU. assert (H : %s) by (right; repeat split; lra). %s unfold %s. cbv beta zeta. %s rewrite hyp, at2, branch_log by exact ZN. rewrite ofC_arg, branch_unity. unfold Rltb. destruct (Rlt_dec (Cmod (Clog z) * Cmod (Clog z)) 1) as [HU2|HU2]; [|contradiction].'%(HY,H0,G,H1))
            P('  change (@pair (car (NumR e)) (car (NumR e)) (Some (ln (Cmod z))) (Some (Carg z))) with (ofC e (Clog z)).')
            P('    destruct (cut_u z S0 X1) as [W0 W1].')
            P('    rewrite %s_cs_eq. cbn [Lcl]. set (w := Clog z) in *. rewrite ofC_opp, cpn%s by assumption. set (lwp := Cplus (Clog (Copp w)) _).'%(G,l))
            if p=='d':
                P('    unfold T_%s_cs, T_%s_hd. cbn [Num.aref nth Sq map app spread]. evs. apply (f_equal (ofC e)). cbn [cpev]. rewrite !rq0.'%(F,F))
            elif n==6:
                P('    rewrite ofC_mul, sumdown_ok. unfold T_%s_cs, T_%s_hd. cbn [Num.aref nth Sq map app spread skipn]. evs. apply (f_equal (ofC e)). cbn [cpev]. rewrite !rq0.'%(F,F))
            else:
                P('    rewrite ofC_mul, sumdown_ok. cbn [skipn]. unfold T_%s_hd. cbn [map app]. evs. apply (f_equal (ofC e)). cbn [cpev]. rewrite !rq0, ?spread_ok.'%F)
                P('    generalize (cpev (map rq T_%s_cs) (Cmult w w)); intros X.'%F)
            if n==3: P('    replace (rq (-1, 12)%Z) with (- (/ IZR 12)) by (unfold rq; cbn [fst snd]; field). rewrite RtoC_opp.')
            P('    clearbody lwp. absq. cbn [Cpow]. change (RtoC 0) with (RtoC 0). ring.')
            P('Qed.')
open('/verif/rocq/theories/CLi_c_eval.v','w').write('\n'.join(o)+'\n')
