(** * The complex dilogarithms in exact arithmetic, four precisions (generated by tools/gen_cli2_inst.py) *)
From Coq Require Import ZArith Reals List Bool Lra Lia Psatz.
From Coquelicot Require Import Coquelicot.
From Interval Require Import Tactic.
From Verif Require Import Num NumR Spec Eval_R Consts Cplx Ccalc CLi Cpoly CLi_unity CLi_T CLi_ref CLi_region Rest Model_LiR Model_LiC CLi_code CLi_eval CLi_dev CLi_rest CLi_acc CLi_inst CLi2_acc.
Import ListNotations.
Local Open Scope R_scope.
Section E.
Variable e : R.
Notation N := (NumR e).
Lemma b2_eps z : ltb N (cnorm N (ofC e z)) (eps N) = Rltb (Cmod z * Cmod z) e. Proof. rewrite ofC_norm. reflexivity. Qed.
Lemma b2_half z : leb N (fst (ofC e z)) (lit N 5 (-1)) = Rleb (fst z) (/ 2).
Proof. rewrite litneg. unfold rq. cbn [fst snd ofC]. change (10 ^ 1)%Z with 10%Z. replace (5 / 10) with (/ 2) by field. reflexivity. Qed.
Lemma b2_one z : ltb N (lit N 1 0) (cnorm N (ofC e z)) = Rltb 1 (Cmod z * Cmod z). Proof. rewrite ofC_norm, lit_int. reflexivity. Qed.
Lemma b2_two z : leb N (cnorm N (ofC e z)) (mul N (lit N 2 0) (fst (ofC e z))) = Rleb (Cmod z * Cmod z) (2 * fst z). Proof. rewrite ofC_norm, lit_int. reflexivity. Qed.
Lemma b2_pi pi : div N (mul N (Some (rq pi)) (Some (rq pi))) (lit N 6 0) = Some (rq pi * rq pi / 6).
Proof. rewrite lit_int, omul. cbn [div NumR]. rewrite odiv_some by lra. reflexivity. Qed.
Lemma b2_log (z : C) : snd z <> 0 -> clog N (copp N (ofC e z)) = ofC e (Clog (Copp z)).
Proof. intros H. rewrite ofC_opp. apply ofC_log. intros E. apply H. apply (f_equal snd) in E. cbn in E. lra. Qed.
Lemma b2_log1 (z : C) : snd z <> 0 -> clog1p N (copp N (ofC e z)) = ofC e (Clog (Cminus (RtoC 1) z)).
Proof. intros H. rewrite ofC_opp. rewrite clog1p_ok; [reflexivity|]. intros E. apply H. apply (f_equal snd) in E. cbn in E. lra. Qed.
Lemma b2_Q (bf : list (Z * Z)) u : (3 <= length bf)%nat ->
  cadd N (ofC e u) (cmul N (cmul N (ofC e u) (ofC e u)) (cadd_rc N (Num.aref N (Sq bf) 0) (cmul N (ofC e u) (chorner N 1 (cmul N (ofC e u) (ofC e u)) (Sq bf)))))
  = ofC e (cpev (map rq ((0, 1)%Z :: (1, 1)%Z :: T2 bf)) u).
Proof.
  intros H. destruct bf as [|b0 bf]; [cbn in H; lia|]. cbn [length] in H. rewrite ofC_mul. rewrite chornerk_ok by (cbn [length]; lia). cbn [skipn].
  change (Num.aref N (Sq (b0 :: bf)) 0) with (Some (rq b0)). evs. apply (f_equal (ofC e)). unfold T2. cbn [hd tl map cpev]. rewrite spread_ok, rq0, rq1. ring.
Qed.
Lemma b2_rest pi L : csub_cr N (cmul N (cmul_rc N (lit N (-5) (-1)) (ofC e L)) (ofC e L)) (Some (rq pi * rq pi / 6)) = ofC e (cpev (rlist 2 (rq pi) 0) L).
Proof.
  rewrite litneg. evs. apply (f_equal (ofC e)). cbn [rlist cpev]. replace (rq (-5, 10 ^ 1)%Z) with (- / 2) by (unfold rq; cbn [fst snd]; change (10 ^ 1)%Z with 10%Z; field). rewrite !RtoC_opp. ring.
Qed.
Lemma b2_tiny z : cmul N (ofC e z) (cadd_rc N (lit N 1 0) (cmul_rc N (lit N 25 (-2)) (ofC e z))) = ofC e (Cmult z (Cplus (RtoC 1) (Cmult (RtoC (/ 4)) z))).
Proof. evs. rewrite rq1. replace (rq (25, 10 ^ 2)%Z) with (/ 4) by (unfold rq; cbn [fst snd]; change (10 ^ 2)%Z with 100%Z; field). reflexivity. Qed.
Lemma sg1 u : cadd N (cmul_rc N (lit N 1 0) (ofC e u)) (lit N 0 0, lit N 0 0) = ofC e u.
Proof. rewrite !lit_int. rewrite ofC_mul_rc. change (@pair (car N) (car N) (Some 0) (Some 0)) with (ofC e (RtoC 0)). rewrite ofC_add. apply (f_equal (ofC e)). ring. Qed.
Lemma sgm u r : cadd N (cmul_rc N (lit N (-1) 0) (ofC e u)) (ofC e r) = ofC e (Cplus (Copp u) r).
Proof. rewrite lit_int, ofC_mul_rc, ofC_add. apply (f_equal (ofC e)). rewrite Cm1. ring. Qed.
End E.

(* src/cpp/Li2.cpp: the table and constant of Model_LiC.cLi2_f *)
Definition T_cLi2_f_bf : list (Z * Z) := [(-1, 4); (1, 36); (-1, 3600); (1, 211680)]%Z.
Definition T_cLi2_f_pi : Z * Z := (314159265, 10^8)%Z.
Lemma cLi2_f_bf_eq e : cLi2_f_bf (NumR e) = Sq T_cLi2_f_bf. Proof. unfold cLi2_f_bf, Sq, T_cLi2_f_bf. cbn [map]. tab. Qed.
Lemma ev_cLi2_f e z : snd z <> 0 -> cLi2_f (NumR e) (ofC e z) = ofC e (c2val e (rq T_cLi2_f_pi) T_cLi2_f_bf z).
Proof.
  intros H. unfold cLi2_f, c2val. destruct (nonreal e _ H) as [ZN EQ]. pose proof (nonreal1 z H) as ZO. cbv zeta. rewrite EQ. rewrite cLi2_f_bf_eq. rewrite b2_eps, b2_half, b2_one, b2_two. rewrite (litneg e 314159265). fold T_cLi2_f_pi. rewrite b2_pi.
  assert (LB : (3 <= length T_cLi2_f_bf)%nat) by (unfold T_cLi2_f_bf; cbn [length]; lia).
  unfold Rltb, Rleb. destruct (Rlt_dec (Cmod z * Cmod z) e); [apply b2_tiny|]. destruct (Rle_dec (fst z) (/ 2)).
  - destruct (Rlt_dec 1 (Cmod z * Cmod z)).
    + rewrite inv1p, b2_log, b2_Q, b2_rest by first [exact H|exact ZN|exact ZO|exact LB]. apply sgm.
    + rewrite opp1p, b2_Q by first [exact H|exact ZN|exact ZO|exact LB]. apply sg1.
  - destruct (Rle_dec (Cmod z * Cmod z) (2 * fst z)).
    + rewrite (ofC_log e z ZN), b2_log1, ofC_opp, b2_Q by first [exact H|exact ZN|exact ZO|exact LB]. rewrite ofC_mul, ofC_add_cr. apply sgm.
    + rewrite inv1p, b2_log, b2_Q, b2_rest by first [exact H|exact ZN|exact ZO|exact LB]. apply sgm.
Qed.
Lemma T_cLi2_f : chkD 11 10 ((1, 1)%Z :: T2 T_cLi2_f_bf) (tl (qz 2)) 0 21 8 = true. Proof. vm_compute. reflexivity. Qed.
Lemma N_cLi2_f : chkD 11 10 (T2n T_cLi2_f_bf) (ikz 2 bz) 1 19 8 = true. Proof. vm_compute. reflexivity. Qed.
Theorem acc_cLi2_f z : snd z <> 0 -> exists v, cLi2_f (NumR eps_f) (ofC eps_f z) = ofC eps_f v /\ close 2 (5 / 10 ^ 7) v z.
Proof.
  intros H. eexists. split; [apply ev_cLi2_f, H|]. apply (c2val_close T_cLi2_f_bf eps_f (rq T_cLi2_f_pi) (21 / 10 ^ 8) (19 / 10 ^ 8) (4 / 10 ^ 9)).
  - intros u Hu. exact (useT 2 _ 21 8 u ltac:(lia) T_cLi2_f Hu).
  - intros w Hw. exact (useN _ 19 8 w ltac:(lia) N_cLi2_f Hw).
  - unfold rq, T_cLi2_f_pi. cbn [fst snd]. interval with (i_prec 200).
  - unfold eps_f. interval with (i_prec 200).
  - interval with (i_prec 200).
  - interval with (i_prec 200).
  - unfold eps_f. interval with (i_prec 200).
  - exact H.
Qed.
(* src/cpp/Li2.cpp: the table and constant of Model_LiC.cLi2_d *)
Definition T_cLi2_d_bf : list (Z * Z) := [(-1, 4); (1, 36); (-1, 3600); (1, 211680); (-1, 10886400); (1, 526901760); (-40647616451442255, 10^27); (89216910204564526, 10^29); (-19939295860721076, 10^30); (45189800296199182, 10^32)]%Z.
Definition T_cLi2_d_pi : Z * Z := (31415926535897932, 10^16)%Z.
Lemma cLi2_d_bf_eq e : cLi2_d_bf (NumR e) = Sq T_cLi2_d_bf. Proof. unfold cLi2_d_bf, Sq, T_cLi2_d_bf. cbn [map]. tab. Qed.
Lemma ev_cLi2_d e z : snd z <> 0 -> cLi2_d (NumR e) (ofC e z) = ofC e (c2val e (rq T_cLi2_d_pi) T_cLi2_d_bf z).
Proof.
  intros H. unfold cLi2_d, c2val. destruct (nonreal e _ H) as [ZN EQ]. pose proof (nonreal1 z H) as ZO. cbv zeta. rewrite EQ. rewrite cLi2_d_bf_eq. rewrite b2_eps, b2_half, b2_one, b2_two. rewrite (litneg e 31415926535897932). fold T_cLi2_d_pi. rewrite b2_pi.
  assert (LB : (3 <= length T_cLi2_d_bf)%nat) by (unfold T_cLi2_d_bf; cbn [length]; lia).
  unfold Rltb, Rleb. destruct (Rlt_dec (Cmod z * Cmod z) e); [apply b2_tiny|]. destruct (Rle_dec (fst z) (/ 2)).
  - destruct (Rlt_dec 1 (Cmod z * Cmod z)).
    + rewrite inv1p, b2_log, b2_Q, b2_rest by first [exact H|exact ZN|exact ZO|exact LB]. apply sgm.
    + rewrite opp1p, b2_Q by first [exact H|exact ZN|exact ZO|exact LB]. apply sg1.
  - destruct (Rle_dec (Cmod z * Cmod z) (2 * fst z)).
    + rewrite (ofC_log e z ZN), b2_log1, ofC_opp, b2_Q by first [exact H|exact ZN|exact ZO|exact LB]. rewrite ofC_mul, ofC_add_cr. apply sgm.
    + rewrite inv1p, b2_log, b2_Q, b2_rest by first [exact H|exact ZN|exact ZO|exact LB]. apply sgm.
Qed.
Lemma T_cLi2_d : chkD 11 10 ((1, 1)%Z :: T2 T_cLi2_d_bf) (tl (qz 2)) 0 8 17 = true. Proof. vm_compute. reflexivity. Qed.
Lemma N_cLi2_d : chkD 11 10 (T2n T_cLi2_d_bf) (ikz 2 bz) 1 66 18 = true. Proof. vm_compute. reflexivity. Qed.
Theorem acc_cLi2_d z : snd z <> 0 -> exists v, cLi2_d (NumR eps_d) (ofC eps_d z) = ofC eps_d v /\ close 2 (27 / 10 ^ 17) v z.
Proof.
  intros H. eexists. split; [apply ev_cLi2_d, H|]. apply (c2val_close T_cLi2_d_bf eps_d (rq T_cLi2_d_pi) (8 / 10 ^ 17) (66 / 10 ^ 18) (5 / 10 ^ 17)).
  - intros u Hu. exact (useT 2 _ 8 17 u ltac:(lia) T_cLi2_d Hu).
  - intros w Hw. exact (useN _ 66 18 w ltac:(lia) N_cLi2_d Hw).
  - unfold rq, T_cLi2_d_pi. cbn [fst snd]. interval with (i_prec 200).
  - unfold eps_d. interval with (i_prec 200).
  - interval with (i_prec 200).
  - interval with (i_prec 200).
  - unfold eps_d. interval with (i_prec 200).
  - exact H.
Qed.
(* src/cpp/Li2.cpp: the table and constant of Model_LiC.cLi2_l *)
Definition T_cLi2_l_bf : list (Z * Z) := [(-1, 4); (1, 36); (-1, 3600); (1, 211680); (-1, 10886400); (1, 526901760); (-406476164514422552680590938629196667, 10^46); (892169102045645255521798731675274885, 10^48); (-199392958607210756872364434779378971, 10^49); (451898002961991819165047655285559323, 10^51); (-103565176121812470144834115422186567, 10^52)]%Z.
Definition T_cLi2_l_pi : Z * Z := (314159265358979323846264338327950288, 10^35)%Z.
Lemma cLi2_l_bf_eq e : cLi2_l_bf (NumR e) = Sq T_cLi2_l_bf. Proof. unfold cLi2_l_bf, Sq, T_cLi2_l_bf. cbn [map]. tab. Qed.
Lemma ev_cLi2_l e z : snd z <> 0 -> cLi2_l (NumR e) (ofC e z) = ofC e (c2val e (rq T_cLi2_l_pi) T_cLi2_l_bf z).
Proof.
  intros H. unfold cLi2_l, c2val. destruct (nonreal e _ H) as [ZN EQ]. pose proof (nonreal1 z H) as ZO. cbv zeta. rewrite EQ. rewrite cLi2_l_bf_eq. rewrite b2_eps, b2_half, b2_one, b2_two. rewrite (litneg e 314159265358979323846264338327950288). fold T_cLi2_l_pi. rewrite b2_pi.
  assert (LB : (3 <= length T_cLi2_l_bf)%nat) by (unfold T_cLi2_l_bf; cbn [length]; lia).
  unfold Rltb, Rleb. destruct (Rlt_dec (Cmod z * Cmod z) e); [apply b2_tiny|]. destruct (Rle_dec (fst z) (/ 2)).
  - destruct (Rlt_dec 1 (Cmod z * Cmod z)).
    + rewrite inv1p, b2_log, b2_Q, b2_rest by first [exact H|exact ZN|exact ZO|exact LB]. apply sgm.
    + rewrite opp1p, b2_Q by first [exact H|exact ZN|exact ZO|exact LB]. apply sg1.
  - destruct (Rle_dec (Cmod z * Cmod z) (2 * fst z)).
    + rewrite (ofC_log e z ZN), b2_log1, ofC_opp, b2_Q by first [exact H|exact ZN|exact ZO|exact LB]. rewrite ofC_mul, ofC_add_cr. apply sgm.
    + rewrite inv1p, b2_log, b2_Q, b2_rest by first [exact H|exact ZN|exact ZO|exact LB]. apply sgm.
Qed.
Lemma T_cLi2_l : chkD 11 10 ((1, 1)%Z :: T2 T_cLi2_l_bf) (tl (qz 2)) 0 21 19 = true. Proof. vm_compute. reflexivity. Qed.
Lemma N_cLi2_l : chkD 11 10 (T2n T_cLi2_l_bf) (ikz 2 bz) 1 19 19 = true. Proof. vm_compute. reflexivity. Qed.
Theorem acc_cLi2_l z : snd z <> 0 -> exists v, cLi2_l (NumR eps_l) (ofC eps_l z) = ofC eps_l v /\ close 2 (5 / 10 ^ 18) v z.
Proof.
  intros H. eexists. split; [apply ev_cLi2_l, H|]. apply (c2val_close T_cLi2_l_bf eps_l (rq T_cLi2_l_pi) (21 / 10 ^ 19) (19 / 10 ^ 19) (6 / 10 ^ 36)).
  - intros u Hu. exact (useT 2 _ 21 19 u ltac:(lia) T_cLi2_l Hu).
  - intros w Hw. exact (useN _ 19 19 w ltac:(lia) N_cLi2_l Hw).
  - unfold rq, T_cLi2_l_pi. cbn [fst snd]. interval with (i_prec 200).
  - unfold eps_l. interval with (i_prec 200).
  - interval with (i_prec 200).
  - interval with (i_prec 200).
  - unfold eps_l. interval with (i_prec 200).
  - exact H.
Qed.
(* src/cpp/Li2.cpp: the table and constant of Model_LiC.cLi2_q *)
Definition T_cLi2_q_bf : list (Z * Z) := [(-1, 4); (1, 36); (-1, 3600); (1, 211680); (-1, 10886400); (1, 526901760); (-406476164514422552680590938629196667, 10^46); (892169102045645255521798731675274885, 10^48); (-199392958607210756872364434779378971, 10^49); (451898002961991819165047655285559323, 10^51); (-103565176121812470144834115422186567, 10^52); (239521862102618674574028374300098038, 10^54); (-558178587432500933628307450562541991, 10^56); (13091507554183212858123073991865923, 10^56); (-308741980242674029324227976486646243, 10^59); (731597565270220342035790560925214859, 10^61); (-174084565723400074098905514775970255, 10^62); (415763564461389971961789962077522667, 10^64); (-996214848828462210319400670245583885, 10^66); (239403442489616530052116798789374956, 10^67); (-576834735536739008429179316187765424, 10^69); (139317947964700797782788660391154833, 10^70); (-337212196548508947046847363525493096, 10^72)]%Z.
Definition T_cLi2_q_pi : Z * Z := (314159265358979323846264338327950288, 10^35)%Z.
Lemma cLi2_q_bf_eq e : cLi2_q_bf (NumR e) = Sq T_cLi2_q_bf. Proof. unfold cLi2_q_bf, Sq, T_cLi2_q_bf. cbn [map]. tab. Qed.
Lemma ev_cLi2_q e z : snd z <> 0 -> cLi2_q (NumR e) (ofC e z) = ofC e (c2val e (rq T_cLi2_q_pi) T_cLi2_q_bf z).
Proof.
  intros H. unfold cLi2_q, c2val. destruct (nonreal e _ H) as [ZN EQ]. pose proof (nonreal1 z H) as ZO. cbv zeta. rewrite EQ. rewrite cLi2_q_bf_eq. rewrite b2_eps, b2_half, b2_one, b2_two. rewrite (litneg e 314159265358979323846264338327950288). fold T_cLi2_q_pi. rewrite b2_pi.
  assert (LB : (3 <= length T_cLi2_q_bf)%nat) by (unfold T_cLi2_q_bf; cbn [length]; lia).
  unfold Rltb, Rleb. destruct (Rlt_dec (Cmod z * Cmod z) e); [apply b2_tiny|]. destruct (Rle_dec (fst z) (/ 2)).
  - destruct (Rlt_dec 1 (Cmod z * Cmod z)).
    + rewrite inv1p, b2_log, b2_Q, b2_rest by first [exact H|exact ZN|exact ZO|exact LB]. apply sgm.
    + rewrite opp1p, b2_Q by first [exact H|exact ZN|exact ZO|exact LB]. apply sg1.
  - destruct (Rle_dec (Cmod z * Cmod z) (2 * fst z)).
    + rewrite (ofC_log e z ZN), b2_log1, ofC_opp, b2_Q by first [exact H|exact ZN|exact ZO|exact LB]. rewrite ofC_mul, ofC_add_cr. apply sgm.
    + rewrite inv1p, b2_log, b2_Q, b2_rest by first [exact H|exact ZN|exact ZO|exact LB]. apply sgm.
Qed.
Lemma T_cLi2_q : chkD 11 10 ((1, 1)%Z :: T2 T_cLi2_q_bf) (tl (qz 2)) 0 8 37 = true. Proof. vm_compute. reflexivity. Qed.
Lemma N_cLi2_q : chkD 11 10 (T2n T_cLi2_q_bf) (ikz 2 bz) 1 7 37 = true. Proof. vm_compute. reflexivity. Qed.
Theorem acc_cLi2_q z : snd z <> 0 -> exists v, cLi2_q (NumR eps_q) (ofC eps_q z) = ofC eps_q v /\ close 2 (3 / 10 ^ 35) v z.
Proof.
  intros H. eexists. split; [apply ev_cLi2_q, H|]. apply (c2val_close T_cLi2_q_bf eps_q (rq T_cLi2_q_pi) (8 / 10 ^ 37) (7 / 10 ^ 37) (6 / 10 ^ 36)).
  - intros u Hu. exact (useT 2 _ 8 37 u ltac:(lia) T_cLi2_q Hu).
  - intros w Hw. exact (useN _ 7 37 w ltac:(lia) N_cLi2_q Hw).
  - unfold rq, T_cLi2_q_pi. cbn [fst snd]. interval with (i_prec 200).
  - unfold eps_q. interval with (i_prec 200).
  - interval with (i_prec 200).
  - interval with (i_prec 200).
  - unfold eps_q. interval with (i_prec 200).
  - exact H.
Qed.
