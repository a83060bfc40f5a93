(** * The Fortran functions cdli3 .. cdli6 in exact arithmetic (generated by tools/gen_cli_f_eval.py) *)
From Coq Require Import ZArith Reals List Bool Lra Lia Psatz.
From Coquelicot Require Import Coquelicot.
From Verif Require Import Num NumR Spec Eval_R Proof_Horner Cplx Ccalc CLi CLi_disc Cpoly CLi_unity CLi_T CLi_region Clausen Rest Model_LiR Model_LiC Model_F CLi_code CLi_eval CLi_c_eval.
Import ListNotations.
Local Open Scope R_scope.

(** like [cval], with the inversion remainder given by its coefficient list *)
Definition cvalL (n : nat) (Ul Tl : list (Z * Z)) (p : R) (rl : list R) (sg : R) (z : C) : C :=
  if Rlt_dec (Cmod (Clog z) * Cmod (Clog z)) 1 then Cplus (cpev (map rq Ul) (Clog z)) (Lm n (Clog z))
  else if Rle_dec (Cmod z) 1 then cpev (map rq ((0, 1)%Z :: Tl)) (U z)
  else Cplus (cpev rl (lmz p z)) (Cmult (RtoC sg) (cpev (map rq ((0, 1)%Z :: Tl)) (U (Cinv z)))).
Section E.
Variable e : R.
Notation N := (NumR e).
Lemma fpl (w : C) : w <> RtoC 0 -> (snd w <> 0 \/ 0 < fst w) -> fst (f_pos_cdlog N (ofC e w)) = ofC e (Clog w).
Proof.
  intros W0 H. rewrite <- (pos_gen e w (lit N 314159265358979324 (-17)) W0 H). unfold f_pos_cdlog. cbv zeta.
  destruct (eqb N (snd (ofC e w)) (lit N 0 0) && ltb N (lit N 0 0) (fst (ofC e w)))%bool; [reflexivity|]. destruct (eqb N (snd (ofC e w)) (lit N 0 0)); reflexivity.
Qed.
Lemma fpn (w : C) : snd w = 0 -> fst w < 0 -> fst (f_pos_cdlog N (ofC e w)) = ofC e (Cplus (Clog w) (0, rq (314159265358979324, 10 ^ 17)%Z - PI)).
Proof.
  intros W0 H. rewrite <- (neg_gen e w (314159265358979324, 10 ^ 17)%Z W0 H). change (Some (rq (314159265358979324, 10 ^ 17)%Z)) with (lit N 314159265358979324 (-17)). unfold f_pos_cdlog. cbv zeta.
  destruct (eqb N (snd (ofC e w)) (lit N 0 0) && ltb N (lit N 0 0) (fst (ofC e w)))%bool; [reflexivity|]. destruct (eqb N (snd (ofC e w)) (lit N 0 0)); reflexivity.
Qed.
Lemma fopp1 (z : C) : cok z -> copp N (fst (f_pos_cdlog N (csub_rc N (lit N 1 0) (ofC e z)))) = ofC e (U z).
Proof. intros H. destruct (cok_1 z H) as [A B]. rewrite lit_int, ofC_sub_rc, fpl, ofC_opp by assumption. reflexivity. Qed.
Lemma oopp a : opp N (Some a) = Some (- a). Proof. reflexivity. Qed.
Lemma nfrac a b : (b <> 0)%Z -> opp N (div N (lit N a 0) (lit N b 0)) = Some (rq (- a, b)%Z).
Proof. intros H. rewrite frac by exact H. rewrite oopp. apply (f_equal (@Some R)). unfold rq. cbn [fst snd]. rewrite opp_IZR. unfold Rdiv. ring. Qed.
End E.
Arguments oopp {e}. Arguments nfrac {e}.
Ltac tabf := repeat (apply f_equal2; [first [reflexivity | apply lit0 | apply nfrac; discriminate | apply frac; discriminate]|]); reflexivity.
Ltac evf := repeat first [rewrite frac by discriminate | rewrite lit0 | rewrite litneg | rewrite omul | rewrite odivq by discriminate | rewrite oopp
  | rewrite ofC_mul | rewrite ofC_add | rewrite ofC_sub | rewrite ofC_opp | rewrite ofC_mul_rc | rewrite ofC_mul_cr | rewrite ofC_add_rc | rewrite ofC_add_cr
  | rewrite ofC_sub_rc | rewrite ofC_sub_cr | rewrite cdivq by discriminate | rewrite spread_ok].

Lemma f_cdli3_bf_eq e : f_cdli3_bf (NumR e) = Sq T_cLi3_d_bf. Proof. unfold f_cdli3_bf, Sq, T_cLi3_d_bf. cbn [map]. tabf. Qed.
Lemma f_cdli3_cs_eq e : f_cdli3_cs (NumR e) = Sq T_cLi3_d_cs. Proof. unfold f_cdli3_cs, Sq, T_cLi3_d_cs. cbn [map]. tabf. Qed.
(* src/fortran/Li3.f90 *)
Definition RL_f_cdli3 : list R := [0; - rq (16449340668482264, 10 ^ 16)%Z; 0; - / 6].
Lemma ev_f_cdli3 e z : snd z <> 0 -> cokx z ->
  f_cdli3 (NumR e) (ofC e z) = (ofC e (cvalL 3 (T_cLi3_d_hd ++ spread T_cLi3_d_cs) T_cLi3_d_bf (rq T_cLi3_d_pi) RL_f_cdli3 1 z), ofC e z).
Proof.
  intros H CK. destruct (nonreal e z H) as [ZN EQ]. pose proof (nonreal1 z H) as ZO. unfold f_cdli3, cvalL. cbv beta zeta. rewrite skip2 by exact EQ. rewrite hyp, at2, branch_log by exact ZN. rewrite ofC_arg, branch_unity. unfold Rltb. destruct (Rlt_dec (Cmod (Clog z) * Cmod (Clog z)) 1) as [HU|HU].
  - apply f_equal2; [|reflexivity]. match goal with |- context [@pair ?A ?B (Some (ln (Cmod z))) (Some (Carg z))] => change (@pair A B (Some (ln (Cmod z))) (Some (Carg z))) with (ofC e (Clog z)) end.
    assert (W0 : Copp (Clog z) <> RtoC 0) by (apply Copp_ne, Clog_n0; assumption). pose proof (cok_u z (cokx_u z CK HU) ZN) as W1.
    rewrite Lm_Lc by lia. rewrite f_cdli3_cs_eq. cbn [Nat.sub Lc]. set (w := Clog z) in *. rewrite ofC_opp, fpl by assumption.
    unfold T_cLi3_d_cs, T_cLi3_d_hd. cbn [Num.aref nth Sq map app spread]. rewrite ?nfrac by discriminate. evf. apply (f_equal (ofC e)). cbn [cpev]. rewrite !rq0. cbn [Z.opp].
    replace (rq (-1, 12)%Z) with (- (/ IZR 12)) by (unfold rq; cbn [fst snd]; field). rewrite RtoC_opp.
    generalize (Clog (Copp w)); intros lw. absq. cbn [Cpow]. change (RtoC 0) with (RtoC 0). ring.
  - rewrite ofC_abs, branch_le1. unfold Rleb. destruct (Rle_dec (Cmod z) 1) as [H1|H1].
    + apply f_equal2; [|reflexivity]. rewrite fopp1 by (exact (cokx_1 z CK H1)). rewrite f_cdli3_bf_eq. rewrite ?(lit_int _ 0). match goal with |- context [@pair ?A ?B (Some 0) (Some 0)] => change (@pair A B (Some 0) (Some 0)) with (ofC e (RtoC 0)) end.
      set (u := U z).
      unfold T_cLi3_d_bf. cbn [Num.aref nth Sq map]. evf. cbn [cpev]. rewrite rq0.
      apply (f_equal (ofC e)). absq. ring.
    + apply f_equal2; [|reflexivity]. rewrite inv1 by exact ZN. rewrite fopp1 by (apply cokx_inv; [exact CK|lra]). rewrite f_cdli3_bf_eq. rewrite branch_pos. rewrite (litneg e 31415926535897932). rewrite lmz_ok. fold (rq T_cLi3_d_pi).
      set (u := U (Cinv z)).
      unfold T_cLi3_d_bf. cbn [Num.aref nth Sq map]. evf. cbn [cpev]. rewrite rq0.
      apply (f_equal (ofC e)). unfold T_cLi3_d_pi, RL_f_cdli3. cbn [cpev]. set (Lz := lmz _ z).
      repeat match goal with |- context [rq (?a, 1%Z)] => replace (rq (a, 1%Z)) with (IZR a) by (unfold rq; cbn [fst snd]; field) end.
      unfold Rdiv. rewrite ?RtoC_opp, ?RtoC_mult, ?RtoC_opp, ?RtoC_mult, ?RtoC_opp. absq.
      ring.
Qed.
Lemma f_cdli4_bf_eq e : f_cdli4_bf (NumR e) = Sq T_cLi4_d_bf. Proof. unfold f_cdli4_bf, Sq, T_cLi4_d_bf. cbn [map]. tabf. Qed.
Lemma f_cdli4_cs_eq e : f_cdli4_cs (NumR e) = Sq T_cLi4_d_cs. Proof. unfold f_cdli4_cs, Sq, T_cLi4_d_cs. cbn [map]. tabf. Qed.
(* src/fortran/Li4.f90 *)
Definition RL_f_cdli4 : list R := [- (7 * rq (97409091034002437, 10 ^ 15)%Z / 360); 0; - (30 * rq (98696044010893586, 10 ^ 16)%Z / 360); 0; - (15 / 360)].
Lemma ev_f_cdli4 e z : snd z <> 0 -> cokx z ->
  f_cdli4 (NumR e) (ofC e z) = (ofC e (cvalL 4 (T_cLi4_d_hd ++ spread T_cLi4_d_cs) T_cLi4_d_bf (rq T_cLi4_d_pi) RL_f_cdli4 (-1) z), ofC e z).
Proof.
  intros H CK. destruct (nonreal e z H) as [ZN EQ]. pose proof (nonreal1 z H) as ZO. unfold f_cdli4, cvalL. cbv beta zeta. rewrite skip2 by exact EQ. rewrite hyp, at2, branch_log by exact ZN. rewrite ofC_arg, branch_unity. unfold Rltb. destruct (Rlt_dec (Cmod (Clog z) * Cmod (Clog z)) 1) as [HU|HU].
  - apply f_equal2; [|reflexivity]. match goal with |- context [@pair ?A ?B (Some (ln (Cmod z))) (Some (Carg z))] => change (@pair A B (Some (ln (Cmod z))) (Some (Carg z))) with (ofC e (Clog z)) end.
    assert (W0 : Copp (Clog z) <> RtoC 0) by (apply Copp_ne, Clog_n0; assumption). pose proof (cok_u z (cokx_u z CK HU) ZN) as W1.
    rewrite Lm_Lc by lia. rewrite f_cdli4_cs_eq. cbn [Nat.sub Lc]. set (w := Clog z) in *. rewrite ofC_opp, fpl by assumption.
    unfold T_cLi4_d_cs, T_cLi4_d_hd. cbn [Num.aref nth Sq map app spread]. rewrite ?nfrac by discriminate. evf. apply (f_equal (ofC e)). cbn [cpev]. rewrite !rq0. cbn [Z.opp].
    generalize (Clog (Copp w)); intros lw. absq. cbn [Cpow]. change (RtoC 0) with (RtoC 0). ring.
  - rewrite ofC_abs, branch_le1. unfold Rleb. destruct (Rle_dec (Cmod z) 1) as [H1|H1].
    + apply f_equal2; [|reflexivity]. rewrite fopp1 by (exact (cokx_1 z CK H1)). rewrite f_cdli4_bf_eq. rewrite ?(lit_int _ 0). match goal with |- context [@pair ?A ?B (Some 0) (Some 0)] => change (@pair A B (Some 0) (Some 0)) with (ofC e (RtoC 0)) end.
      set (u := U z).
      unfold T_cLi4_d_bf. cbn [Num.aref nth Sq map]. evf. cbn [cpev]. rewrite rq0.
      rewrite ?rq1.
      apply (f_equal (ofC e)). absq. ring.
    + apply f_equal2; [|reflexivity]. rewrite inv1 by exact ZN. rewrite fopp1 by (apply cokx_inv; [exact CK|lra]). rewrite f_cdli4_bf_eq. rewrite branch_pos. rewrite (litneg e 31415926535897932). rewrite lmz_ok. fold (rq T_cLi4_d_pi).
      set (u := U (Cinv z)).
      unfold T_cLi4_d_bf. cbn [Num.aref nth Sq map]. evf. cbn [cpev]. rewrite rq0.
      rewrite ?rqm1, ?Cm1.
      apply (f_equal (ofC e)). unfold T_cLi4_d_pi, RL_f_cdli4. cbn [cpev]. set (Lz := lmz _ z).
      repeat match goal with |- context [rq (?a, 1%Z)] => replace (rq (a, 1%Z)) with (IZR a) by (unfold rq; cbn [fst snd]; field) end.
      unfold Rdiv. rewrite ?RtoC_opp, ?RtoC_mult, ?RtoC_opp, ?RtoC_mult, ?RtoC_opp. absq.
      ring.
Qed.
Lemma f_cdli5_bf_eq e : f_cdli5_bf (NumR e) = Sq T_cLi5_d_bf. Proof. unfold f_cdli5_bf, Sq, T_cLi5_d_bf. cbn [map]. tabf. Qed.
Lemma f_cdli5_cs_eq e : f_cdli5_cs (NumR e) = Sq T_cLi5_d_cs. Proof. unfold f_cdli5_cs, Sq, T_cLi5_d_cs. cbn [map]. tabf. Qed.
(* src/fortran/Li5.f90 *)
Definition RL_f_cdli5 : list R := [0; - (7 * rq (97409091034002437, 10 ^ 15)%Z / 360); 0; - (10 * rq (98696044010893586, 10 ^ 16)%Z / 360); 0; - (3 / 360)].
Lemma ev_f_cdli5 e z : ordinary z -> cokx z ->
  f_cdli5 (NumR e) (ofC e z) = (ofC e (cvalL 5 (T_cLi5_d_hd ++ spread T_cLi5_d_cs) T_cLi5_d_bf (rq T_cLi5_d_pi) RL_f_cdli5 1 z), ofC e z).
Proof.
  intros H CK. destruct (ord_ne z H) as [ZN ZO]. pose proof (ord_tests e z H) as TS. unfold f_cdli5, cvalL. cbv beta zeta. rewrite skip3 by exact TS. rewrite hyp, at2, branch_log by exact ZN. rewrite ofC_arg, branch_unity. unfold Rltb. destruct (Rlt_dec (Cmod (Clog z) * Cmod (Clog z)) 1) as [HU|HU].
  - apply f_equal2; [|reflexivity]. match goal with |- context [@pair ?A ?B (Some (ln (Cmod z))) (Some (Carg z))] => change (@pair A B (Some (ln (Cmod z))) (Some (Carg z))) with (ofC e (Clog z)) end.
    assert (W0 : Copp (Clog z) <> RtoC 0) by (apply Copp_ne, Clog_n0; assumption). pose proof (cok_u z (cokx_u z CK HU) ZN) as W1.
    rewrite Lm_Lc by lia. rewrite f_cdli5_cs_eq. cbn [Nat.sub Lc]. set (w := Clog z) in *. rewrite ofC_opp, fpl by assumption.
    unfold T_cLi5_d_cs, T_cLi5_d_hd. cbn [Num.aref nth Sq map app spread]. rewrite ?nfrac by discriminate. evf. apply (f_equal (ofC e)). cbn [cpev]. rewrite !rq0. cbn [Z.opp].
    generalize (Clog (Copp w)); intros lw. absq. cbn [Cpow]. change (RtoC 0) with (RtoC 0). ring.
  - rewrite ofC_abs, branch_le1. unfold Rleb. destruct (Rle_dec (Cmod z) 1) as [H1|H1].
    + apply f_equal2; [|reflexivity]. rewrite fopp1 by (exact (cokx_1 z CK H1)). rewrite f_cdli5_bf_eq. rewrite ?(lit_int _ 0). match goal with |- context [@pair ?A ?B (Some 0) (Some 0)] => change (@pair A B (Some 0) (Some 0)) with (ofC e (RtoC 0)) end.
      set (u := U z).
      unfold T_cLi5_d_bf. cbn [Num.aref nth Sq map]. evf. cbn [cpev]. rewrite rq0.
      apply (f_equal (ofC e)). absq. ring.
    + apply f_equal2; [|reflexivity]. rewrite inv1 by exact ZN. rewrite fopp1 by (apply cokx_inv; [exact CK|lra]). rewrite f_cdli5_bf_eq. rewrite branch_pos. rewrite (litneg e 31415926535897932). rewrite lmz_ok. fold (rq T_cLi5_d_pi).
      set (u := U (Cinv z)).
      unfold T_cLi5_d_bf. cbn [Num.aref nth Sq map]. evf. cbn [cpev]. rewrite rq0.
      apply (f_equal (ofC e)). unfold T_cLi5_d_pi, RL_f_cdli5. cbn [cpev]. set (Lz := lmz _ z).
      repeat match goal with |- context [rq (?a, 1%Z)] => replace (rq (a, 1%Z)) with (IZR a) by (unfold rq; cbn [fst snd]; field) end.
      unfold Rdiv. rewrite ?RtoC_opp, ?RtoC_mult, ?RtoC_opp, ?RtoC_mult, ?RtoC_opp. absq.
      ring.
Qed.
(** on the cut, 1 < x < e *)
Lemma evx_f_cdli5 e z : snd z = 0 -> 1 < fst z -> Cmod (Clog z) * Cmod (Clog z) < 1 ->
  f_cdli5 (NumR e) (ofC e z) = (ofC e (Cplus (cpev (map rq (T_cLi5_d_hd ++ spread T_cLi5_d_cs)) (Clog z)) (Cmult (Cpow (Clog z) 4) (Lcl 5 (Cplus (Clog (Copp (Clog z))) (0, rq (314159265358979324, 10 ^ 17)%Z - PI))))), ofC e z).
Proof.
  intros S0 X1 HU. assert (H : ordinary z) by (right; repeat split; lra). destruct (ord_ne z H) as [ZN ZO]. pose proof (ord_tests e z H) as TS. unfold f_cdli5. cbv beta zeta. rewrite skip3 by exact TS. rewrite hyp, at2, branch_log by exact ZN. rewrite ofC_arg, branch_unity. unfold Rltb. destruct (Rlt_dec (Cmod (Clog z) * Cmod (Clog z)) 1) as [HU2|HU2]; [|contradiction].
  apply f_equal2; [|reflexivity]. match goal with |- context [@pair ?A ?B (Some (ln (Cmod z))) (Some (Carg z))] => change (@pair A B (Some (ln (Cmod z))) (Some (Carg z))) with (ofC e (Clog z)) end.
    destruct (cut_u z S0 X1) as [W0 W1].
    rewrite f_cdli5_cs_eq. cbn [Lcl]. set (w := Clog z) in *. rewrite ofC_opp, fpn by assumption. set (lwp := Cplus (Clog (Copp w)) _).
    unfold T_cLi5_d_cs, T_cLi5_d_hd. cbn [Num.aref nth Sq map app spread]. rewrite ?nfrac by discriminate. evf. apply (f_equal (ofC e)). cbn [cpev]. rewrite !rq0. cbn [Z.opp].
    clearbody lwp. absq. cbn [Cpow]. change (RtoC 0) with (RtoC 0). ring.
Qed.
Lemma f_cdli6_bf_eq e : f_cdli6_bf (NumR e) = Sq T_cLi6_d_bf. Proof. unfold f_cdli6_bf, Sq, T_cLi6_d_bf. cbn [map]. tabf. Qed.
Lemma f_cdli6_cs_eq e : f_cdli6_cs (NumR e) = Sq T_cLi6_d_cs. Proof. unfold f_cdli6_cs, Sq, T_cLi6_d_cs. cbn [map]. tabf. Qed.
(* src/fortran/Li6.f90 *)
Definition RL_f_cdli6 : list R := [- (31 * rq (96138919357530444, 10 ^ 14)%Z / 15120); 0; - (7 * rq (97409091034002437, 10 ^ 15)%Z / 720); 0; - (rq (98696044010893586, 10 ^ 16)%Z / 144); 0; - / 720].
Lemma ev_f_cdli6 e z : ordinary z -> cokx z ->
  f_cdli6 (NumR e) (ofC e z) = (ofC e (cvalL 6 (T_cLi6_d_hd ++ spread T_cLi6_d_cs) T_cLi6_d_bf (rq T_cLi6_d_pi) RL_f_cdli6 (-1) z), ofC e z).
Proof.
  intros H CK. destruct (ord_ne z H) as [ZN ZO]. pose proof (ord_tests e z H) as TS. unfold f_cdli6, cvalL. cbv beta zeta. rewrite skip3 by exact TS. rewrite hyp, at2, branch_log by exact ZN. rewrite ofC_arg, branch_unity. unfold Rltb. destruct (Rlt_dec (Cmod (Clog z) * Cmod (Clog z)) 1) as [HU|HU].
  - apply f_equal2; [|reflexivity]. match goal with |- context [@pair ?A ?B (Some (ln (Cmod z))) (Some (Carg z))] => change (@pair A B (Some (ln (Cmod z))) (Some (Carg z))) with (ofC e (Clog z)) end.
    assert (W0 : Copp (Clog z) <> RtoC 0) by (apply Copp_ne, Clog_n0; assumption). pose proof (cok_u z (cokx_u z CK HU) ZN) as W1.
    rewrite Lm_Lc by lia. rewrite f_cdli6_cs_eq. cbn [Nat.sub Lc]. set (w := Clog z) in *. rewrite ofC_opp, fpl by assumption.
    unfold T_cLi6_d_cs, T_cLi6_d_hd. cbn [Num.aref nth Sq map app spread]. rewrite ?nfrac by discriminate. evf. apply (f_equal (ofC e)). cbn [cpev]. rewrite !rq0. cbn [Z.opp].
    generalize (Clog (Copp w)); intros lw. absq. cbn [Cpow]. change (RtoC 0) with (RtoC 0). ring.
  - rewrite ofC_abs, branch_le1. unfold Rleb. destruct (Rle_dec (Cmod z) 1) as [H1|H1].
    + apply f_equal2; [|reflexivity]. rewrite fopp1 by (exact (cokx_1 z CK H1)). rewrite f_cdli6_bf_eq. rewrite ?(lit_int _ 0). match goal with |- context [@pair ?A ?B (Some 0) (Some 0)] => change (@pair A B (Some 0) (Some 0)) with (ofC e (RtoC 0)) end.
      set (u := U z).
      unfold T_cLi6_d_bf. cbn [Num.aref nth Sq map]. evf. cbn [cpev]. rewrite rq0.
      rewrite ?rq1.
      apply (f_equal (ofC e)). absq. ring.
    + apply f_equal2; [|reflexivity]. rewrite inv1 by exact ZN. rewrite fopp1 by (apply cokx_inv; [exact CK|lra]). rewrite f_cdli6_bf_eq. rewrite branch_pos. rewrite (litneg e 31415926535897932). rewrite lmz_ok. fold (rq T_cLi6_d_pi).
      set (u := U (Cinv z)).
      unfold T_cLi6_d_bf. cbn [Num.aref nth Sq map]. evf. cbn [cpev]. rewrite rq0.
      rewrite ?rqm1, ?Cm1.
      apply (f_equal (ofC e)). unfold T_cLi6_d_pi, RL_f_cdli6. cbn [cpev]. set (Lz := lmz _ z).
      repeat match goal with |- context [rq (?a, 1%Z)] => replace (rq (a, 1%Z)) with (IZR a) by (unfold rq; cbn [fst snd]; field) end.
      unfold Rdiv. rewrite ?RtoC_opp, ?RtoC_mult, ?RtoC_opp, ?RtoC_mult, ?RtoC_opp. absq.
      ring.
Qed.
(** on the cut, 1 < x < e *)
Lemma evx_f_cdli6 e z : snd z = 0 -> 1 < fst z -> Cmod (Clog z) * Cmod (Clog z) < 1 ->
  f_cdli6 (NumR e) (ofC e z) = (ofC e (Cplus (cpev (map rq (T_cLi6_d_hd ++ spread T_cLi6_d_cs)) (Clog z)) (Cmult (Cpow (Clog z) 5) (Lcl 6 (Cplus (Clog (Copp (Clog z))) (0, rq (314159265358979324, 10 ^ 17)%Z - PI))))), ofC e z).
Proof.
  intros S0 X1 HU. assert (H : ordinary z) by (right; repeat split; lra). destruct (ord_ne z H) as [ZN ZO]. pose proof (ord_tests e z H) as TS. unfold f_cdli6. cbv beta zeta. rewrite skip3 by exact TS. rewrite hyp, at2, branch_log by exact ZN. rewrite ofC_arg, branch_unity. unfold Rltb. destruct (Rlt_dec (Cmod (Clog z) * Cmod (Clog z)) 1) as [HU2|HU2]; [|contradiction].
  apply f_equal2; [|reflexivity]. match goal with |- context [@pair ?A ?B (Some (ln (Cmod z))) (Some (Carg z))] => change (@pair A B (Some (ln (Cmod z))) (Some (Carg z))) with (ofC e (Clog z)) end.
    destruct (cut_u z S0 X1) as [W0 W1].
    rewrite f_cdli6_cs_eq. cbn [Lcl]. set (w := Clog z) in *. rewrite ofC_opp, fpn by assumption. set (lwp := Cplus (Clog (Copp w)) _).
    unfold T_cLi6_d_cs, T_cLi6_d_hd. cbn [Num.aref nth Sq map app spread]. rewrite ?nfrac by discriminate. evf. apply (f_equal (ofC e)). cbn [cpev]. rewrite !rq0. cbn [Z.opp].
    clearbody lwp. absq. cbn [Cpow]. change (RtoC 0) with (RtoC 0). ring.
Qed.
