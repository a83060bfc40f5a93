(** * The complex dilogarithm in IEEE double arithmetic: logarithms, polynomial, branch tests *)
From Coq Require Import ZArith Reals Bool Lia Lra Psatz List.
From Coquelicot Require Import Coquelicot.
From Interval Require Import Tactic.
From Flocq Require Import Core Relative Sterbenz IEEE754.BinarySingleNaN.
From Verif Require Import Num NumR Eval_R NumB NumB_facts Proof_Float Libm Ferr FerrB Fcalc Consts Cplx Ccalc CLi CLi_T CLi_region CLi_inst CLi2_acc CLi2_inst CLi2_slack Model_LiC Model_C Model_F CLi_c_eval CLi2_c_eval CLi_f_eval CLi2_f_eval Ieee Li2_ieee Li2_inst Li34_ieee Cieee.
Import ListNotations.
Local Open Scope R_scope.

Lemma Cmod_re (z : C) e : Rabs (fst z) <= e -> snd z = 0 -> Cmod z <= e.
Proof. intros H E. eapply Rle_trans; [apply Cmod_le_sum|]. rewrite E, Rabs_R0. lra. Qed.
Lemma Cmod_tri_lo (a b : C) : Cmod a - Cmod (Cminus a b) <= Cmod b.
Proof. assert (Cmod a <= Cmod b + Cmod (Cminus a b)); [|lra]. replace a with (Cplus b (Cminus a b)) at 1 by ring. apply Cmod_triangle. Qed.

Lemma u_b2 : u <= 112 / 10 ^ 18. Proof. rewrite u_val. lra. Qed.

Section C.
Variable L : libm 53 1024.
Hypothesis HL : libm_ok (Hp := Hp53) (He := He53) L.
Notation N := (B64 L).
Local Notation NN := (NumB 53 1024 Hp53 He53 L).
Notation val := (val L).
Notation CM := (CM L).
Notation finc := (finc L).
Lemma leb_R (x y : fl) : is_finite x = true -> is_finite y = true -> leb N x y = Rle_bool (B2R x) (B2R y).
Proof. intros Fx Fy. exact (Bleb_correct 53 1024 x y Fx Fy). Qed.
Lemma ltb_R (x y : fl) : is_finite x = true -> is_finite y = true -> ltb N x y = Rlt_bool (B2R x) (B2R y).
Proof. intros Fx Fy. exact (Bltb_correct 53 1024 x y Fx Fy). Qed.
Lemma eqb_R (x y : fl) : is_finite x = true -> is_finite y = true -> eqb N x y = Req_bool (B2R x) (B2R y).
Proof. intros Fx Fy. exact (Beqb_correct 53 1024 x y Fx Fy). Qed.
Lemma one_A : A (lit N 1 0) 1 0. Proof. exact (A_int 53 1024 Hp53 He53 ltac:(lia) L 1 ltac:(lia)). Qed.
Lemma U_opp W : U (Copp W) = Copp (Clog (Cplus (RtoC 1) W)). Proof. unfold U. do 2 f_equal. ring. Qed.

(** log(1+w) away from w = -1 *)
Lemma clog1p_ok w : finc w -> regionK (Copp (val w)) -> / 10 ^ 13 <= Cmod (val w) -> CM (clog1p N w) (Clog (Cplus (RtoC 1) (val w))) (36 * u).
Proof.
  intros [F1 F2] RK HW. pose proof u_b as UB. pose proof (eta_1) as ET. set (W := val w) in *. destruct (regionK_pt _ RK) as (_ & R2 & _). rewrite U_opp, Cmod_opp in R2. destruct RK as [K1 K2]. rewrite Cmod_opp in K1.
  assert (WM : Cmod W <= 1001 / 1000) by (pose proof (Cmod_ge_0 W); nra). pose proof (Cmod_fst W) as W1. change (fst W) with (B2R (fst w)) in W1. assert (K3 : - (501 / 1000) <= B2R (fst w)) by (unfold W, Cieee.val, Copp in K2; cbn [fst snd] in K2; lra).
  apply Rabs_le_between in W1. destruct (int_v L 1 ltac:(lia)) as [Fo Vo]. destruct (int_v L 0 ltac:(lia)) as [Fz Vz].
  set (v := cadd_rc N (lit N 1 0) w). set (d := csub_cr N v (lit N 1 0)).
  assert (Av : A (fst v) (1 + B2R (fst w)) (21 / 10 * u)).
  { refine (A_weak _ _ _ _ _ _ (aadd L _ _ _ _ 0 0 (201 / 100) one_A (A_self _ _ _ F1) _ _) _); [rewrite Rabs_pos_eq; lra|lra|lra]. }
  assert (Ad : A (fst d) (B2R (fst w)) (34 / 10 * u)).
  { refine (A_weak _ _ _ _ _ _ (eq_ind _ (fun x => A _ x _) (asub L _ _ _ _ _ 0 (11 / 10) Av one_A _ _) _ _) _); [replace (1 + B2R (fst w) - 1) with (B2R (fst w)) by ring; apply Rle_trans with (1002 / 1000 + 21 / 10 * u + 0); [|lra]; assert (Rabs (B2R (fst w)) <= 1002 / 1000) by (apply Rabs_le; lra); lra|lra|ring|lra]. }
  destruct Av as [Fv Dv], Ad as [Fd Dd].
  assert (Dv' : Cmod (Cminus (val v) (Cplus (RtoC 1) W)) <= 21 / 10 * u). { apply Cmod_re; [exact Dv|]. unfold Cieee.val, W, v, cadd_rc, Cminus, Cplus, Copp, RtoC, Cieee.val. cbn [fst snd]. ring. }
  assert (Dd' : Cmod (Cminus W (val d)) <= 34 / 10 * u). { apply Cmod_re; [change (Rabs (B2R (fst w) - B2R (fst d)) <= 34 / 10 * u); rewrite Rabs_minus_sym; exact Dd|]. unfold Cieee.val, W, d, v, csub_cr, cadd_rc, Cminus, Cplus, Copp, RtoC, Cieee.val. cbn [fst snd]. ring. }
  apply Rabs_le_between in Dv. assert (V1 : 49 / 100 <= B2R (fst v)) by lra.
  assert (B1 : (eqb N (fst v) (lit N 1 0) && eqb N (snd v) (lit N 0 0))%bool = false).
  { rewrite (eqb_R (fst v)), (eqb_R (snd v)) by assumption. rewrite Vo, Vz. destruct (Req_bool_spec (B2R (fst v)) 1) as [E|E]; [|reflexivity]. destruct (Req_bool_spec (B2R (snd v)) 0) as [E'|E']; [|reflexivity]. exfalso.
    assert (Cmod W <= 21 / 10 * u); [|lra]. apply Cmod_re; [unfold W, Cieee.val; cbn [fst]; apply Rabs_le; lra|exact E']. }
  assert (B2 : leb N (fst v) (lit N 0 0) = false) by (rewrite leb_R, Vz by assumption; apply Rle_bool_false; lra).
  unfold clog1p. fold v. rewrite B1, B2. fold d.
  assert (Hv : Cmod (val v) <= 22 / 10). { replace (val v) with (Cplus (Cminus (val v) (Cplus (RtoC 1) W)) (Cplus (RtoC 1) W)) by ring. eapply Rle_trans; [apply Cmod_triangle|]. pose proof (Cmod_triangle (RtoC 1) W) as T. rewrite Cmod_1 in T. lra. }
  assert (Hv2 : 49 / 100 <= Cmod (val v)) by (eapply Rle_trans; [exact V1|]; eapply Rle_trans; [apply Rle_abs|exact (Cmod_fst (val v))]).
  pose proof (bm1000) as B0. pose proof (clog_ok L HL v (conj Fv F2) (or_introl (Rlt_le_trans 0 (49 / 100) (B2R (fst v)) ltac:(lra) V1)) ltac:(lra)) as CL.
  set (l := Clog (val v)) in *. set (l1 := Clog (Cplus (RtoC 1) W)) in *.
  assert (LIP : Cmod (Cminus l l1) <= 43 / 10 * u).
  { eapply Rle_trans; [apply (Clog_lip (49 / 100)); [lra| |exact V1]|]. { change (fst (Cplus (RtoC 1) W)) with (1 + B2R (fst w)). lra. }
    apply Rle_trans with ((21 / 10 * u) / (49 / 100)); [unfold Rdiv; apply Rmult_le_compat_r; lra|lra]. }
  assert (LL : Cmod l <= 1101 / 1000) by (replace l with (Cplus (Cminus l l1) l1) by ring; eapply Rle_trans; [apply Cmod_triangle|]; lra).
  assert (L1W : Cmod l1 <= Cmod W * (100 / 49)).
  { pose proof (Clog_lip (49 / 100) (RtoC 1) (Cplus (RtoC 1) W) ltac:(lra) ltac:(cbn; lra) ltac:(change (fst (Cplus (RtoC 1) W)) with (1 + B2R (fst w)); lra)) as K.
    replace (Clog (RtoC 1)) with (RtoC 0) in K by (rewrite Clog_pos, ln_1 by lra; reflexivity). fold l1 in K. replace (Cminus l1 (RtoC 0)) with l1 in K by ring. replace (Cminus (Cplus (RtoC 1) W) (RtoC 1)) with W in K by ring. unfold Rdiv in K. replace (/ (49 * / 100)) with (100 / 49) in K by field. exact K. }
  assert (CL' : CM (clog N v) l (103 / 10 * u)). { eapply CM_weak; [exact CL|]. assert (4 * u * Cmod l <= 4 * u * (1101 / 1000)) by (apply Rmult_le_compat_l; lra). lra. }
  pose proof (Cmod_tri_lo W (val d)) as TD. assert (I13 : 0 < / 10 ^ 13) by (apply Rinv_0_lt_compat, pow_lt; lra).
  pose proof u_b2 as UB2. assert (DW : Cmod W <= 101 / 100 * Cmod (val d)) by lra. assert (Dlo : / 10 ^ 14 <= Cmod (val d)) by lra. assert (D0 : 0 < Cmod (val d)) by lra.
  assert (Dhi : Cmod (val d) <= 10). { replace (val d) with (Cminus W (Cminus W (val d))) by ring. eapply Rle_trans; [apply Cmod_triangle|]. rewrite Cmod_opp. lra. }
  pose proof (cdiv_ok L w d (conj F1 F2) (conj Fd F2) ltac:(lra) DW) as CD. fold W in CD. assert (DN : val d <> RtoC 0) by (intros E; rewrite E, Cmod_0 in D0; lra).
  assert (RM : Cmod (Cdiv W (val d)) <= 101 / 100). { rewrite Cmod_div by exact DN. apply Rmult_le_reg_r with (Cmod (val d)); [exact D0|]. unfold Rdiv at 1. rewrite Rmult_assoc, Rinv_l by lra. lra. }
  pose proof (cmul_ok L (clog N v) (cdiv N w d) l (Cdiv W (val d)) (103 / 10 * u) (8 * u) (1102 / 1000) (102 / 100) CL' CD ltac:(lra) ltac:(lra) ltac:(lra) ltac:(lra)) as CP.
  refine (CM_weak _ _ _ _ _ (CM_move _ _ _ _ _ (12 * u) CP _) _); [|lra].
  replace (Cminus (Cmult l (Cdiv W (val d))) l1) with (Cplus (Cmult (Cminus l l1) (Cdiv W (val d))) (Cmult (Cdiv l1 (val d)) (Cminus W (val d)))) by (field; exact DN).
  eapply Rle_trans; [apply Cmod_triangle|]. rewrite !Cmod_mult. rewrite Cmod_div at 1 by exact DN. rewrite <- Cmod_div by exact DN.
  assert (Q : Cmod (Cdiv l1 (val d)) <= 207 / 100). { rewrite Cmod_div by exact DN. apply Rmult_le_reg_r with (Cmod (val d)); [exact D0|]. unfold Rdiv at 1. rewrite Rmult_assoc, Rinv_l by lra. lra. }
  assert (P1 : Cmod (Cminus l l1) * Cmod (Cdiv W (val d)) <= 43 / 10 * u * (101 / 100)) by (apply Rmult_le_compat; try apply Cmod_ge_0; assumption).
  assert (P2 : Cmod (Cdiv l1 (val d)) * Cmod (Cminus W (val d)) <= 207 / 100 * (34 / 10 * u)) by (apply Rmult_le_compat; try apply Cmod_ge_0; assumption). lra.
Qed.

(** log(1-z) for z near 1: the subtractions are exact *)
Lemma clog1m_ok z : finc z -> / 2 < B2R (fst z) <= 2 -> B2R (snd z) <> 0 -> Rabs (B2R (snd z)) <= 3 -> (B2R (fst z) <> 1 \/ bpow radix2 (-1000) <= Rabs (B2R (snd z))) ->
  CM (clog1p N (copp N z)) (Clog (Cminus (RtoC 1) (val z))) (18 * u + 16 * u * Cmod (Clog (Cminus (RtoC 1) (val z)))) /\ Cmod (Clog (Cminus (RtoC 1) (val z))) <= 1000.
Proof.
  intros [F1 F2] Ha Hb Hb3 H1. pose proof u_b as UB. pose proof (eta_1) as ET. set (a := B2R (fst z)) in *. set (b := B2R (snd z)) in *. destruct (int_v L 1 ltac:(lia)) as [Fo Vo]. destruct (int_v L 0 ltac:(lia)) as [Fz Vz].
  destruct (val_opp L z (conj F1 F2)) as [[G1 G2] VO]. set (w := copp N z) in *. assert (W1 : B2R (fst w) = - a) by (apply (f_equal fst) in VO; exact VO). assert (W2 : B2R (snd w) = - b) by (apply (f_equal snd) in VO; exact VO).
  set (v := cadd_rc N (lit N 1 0) w). set (d := csub_cr N v (lit N 1 0)).
  assert (Ev : is_finite (fst v) = true /\ B2R (fst v) = 1 - a).
  { destruct (add_r 53 1024 Hp53 He53 ltac:(lia) ltac:(lia) ltac:(lia) L (lit N 1 0) (fst w) Fo G1) as [P Q]. { apply big_le. rewrite Vo, W1. apply Rle_trans with 2; [apply Rabs_le; lra|lra]. }
    split; [exact P|]. change (fst v) with (add NN (lit N 1 0) (fst w)). rewrite Q, Vo, W1. change (1 + - a) with (1 - a). apply round_generic; [apply valid_rnd_N|]. apply sterbenz; [apply (fexp_correct 53 1024 Hp53)|apply fexp_monotone|apply gf_1; exact L|apply generic_format_B2R|fold a; lra]. }
  destruct Ev as [Fv V1].
  assert (Ed : is_finite (fst d) = true /\ B2R (fst d) = - a).
  { destruct (sub_r 53 1024 Hp53 He53 ltac:(lia) ltac:(lia) ltac:(lia) L (fst v) (lit N 1 0) Fv Fo) as [P Q]. { apply big_le. rewrite Vo, V1. apply Rle_trans with 4; [apply Rabs_le; lra|lra]. }
    split; [exact P|]. change (fst d) with (sub NN (fst v) (lit N 1 0)). rewrite Q, Vo, V1. replace (1 - a - 1) with (- a) by ring. apply round_generic; [apply valid_rnd_N|]. apply generic_format_opp, generic_format_B2R. }
  destruct Ed as [Fd D1]. assert (Vv : val v = Cminus (RtoC 1) (val z)) by (unfold Cieee.val at 1; rewrite V1; change (snd v) with (snd w); rewrite W2; unfold Cminus, Cplus, Copp, RtoC, Cieee.val; cbn [fst snd]; fold a b; f_equal; ring).
  assert (Vd : val d = val w) by (unfold Cieee.val; rewrite D1, W1; reflexivity).
  assert (Mlo : bpow radix2 (-1000) <= Cmod (val v)).
  { destruct (Req_dec a 1) as [E|E].
    - destruct H1 as [H1|H1]; [contradiction|]. eapply Rle_trans; [exact H1|]. eapply Rle_trans; [|exact (Cmod_snd (val v))]. change (snd (val v)) with (B2R (snd w)). rewrite W2, Rabs_Ropp. lra.
    - assert (K : u <= Rabs (1 - a)). { destruct (Rlt_le_dec a 1) as [Q|Q]; [pose proof (below_1 L (fst z) Q) as T; fold a in T; rewrite Rabs_pos_eq; lra|]. assert (Q' : 1 < a) by lra. pose proof (above_1 L (fst z) Q') as T. fold a in T. rewrite Rabs_left; lra. }
      apply Rle_trans with u; [unfold Fcalc.u; apply bpow_le; lia|]. eapply Rle_trans; [exact K|]. rewrite <- V1. exact (Cmod_fst (val v)). }
  assert (Mhi : Cmod (val v) <= 5). { eapply Rle_trans; [apply Cmod_le_sum|]. change (fst (val v)) with (B2R (fst v)). change (snd (val v)) with (B2R (snd w)). rewrite V1, W2, Rabs_Ropp. assert (Rabs (1 - a) <= 1) by (apply Rabs_le; lra). lra. }
  assert (OFF : offneg (val v)) by (right; change (B2R (snd w) <> 0); rewrite W2; lra).
  pose proof (clog_ok L HL v (conj Fv G2) OFF ltac:(lra)) as CL. rewrite Vv in CL, Mlo, Mhi. set (l := Clog (Cminus (RtoC 1) (val z))) in *.
  assert (LB : Cmod l <= 1000).
  { eapply Rle_trans; [apply Cmod_le_sum|]. pose proof (Carg_abs (Cminus (RtoC 1) (val z))) as AA. change (snd l) with (Carg (Cminus (RtoC 1) (val z))). change (fst l) with (ln (Cmod (Cminus (RtoC 1) (val z)))). set (m := Cmod (Cminus (RtoC 1) (val z))) in *.
    assert (PB : PI <= 4) by interval. pose proof (bm1000) as B0. assert (Rabs (ln m) <= 900); [|lra]. apply Rabs_le. split.
    - apply Rle_trans with (ln (bpow radix2 (-1000))); [|apply ln_le; lra]. rewrite bpow_exp, ln_exp. change (IZR radix2) with 2. assert (ln 2 <= 8 / 10) by interval. lra.
    - apply Rle_trans with (ln 5); [apply ln_le; lra|]. interval. }
  split; [|exact LB]. pose proof (Cmod_ge_0 l) as L0. assert (uL : 0 <= u * Cmod l <= u * 1000) by (split; [apply Rmult_le_pos; lra|apply Rmult_le_compat_l; lra]).
  assert (B1 : eqb N (fst v) (lit N 1 0) = false) by (rewrite (eqb_R (fst v)), Vo, V1 by assumption; apply Req_bool_false; lra).
  unfold clog1p. fold v. rewrite B1, andb_false_l. destruct (leb N (fst v) (lit N 0 0)).
  - eapply CM_weak; [exact CL|]. lra.
  - fold d. assert (MW : Rabs a <= Cmod (val w)) by (rewrite <- Rabs_Ropp, <- W1; exact (Cmod_fst (val w))). rewrite Rabs_pos_eq in MW by lra.
    assert (MW2 : Cmod (val w) <= 10). { eapply Rle_trans; [apply Cmod_le_sum|]. change (fst (val w)) with (B2R (fst w)). change (snd (val w)) with (B2R (snd w)). rewrite W1, W2, !Rabs_Ropp, (Rabs_pos_eq a) by lra. lra. }
    assert (I20 : / 10 ^ 20 <= / 2) by lra. pose proof (cdiv_ok L w d (conj G1 G2) (conj Fd G2) ltac:(rewrite Vd; lra) ltac:(rewrite Vd; lra)) as CD. rewrite Vd in CD.
    assert (DN : val w <> RtoC 0) by (intros E; rewrite E, Cmod_0 in MW; lra). replace (Cdiv (val w) (val w)) with (RtoC 1) in CD by (field; exact DN).
    pose proof (cmul_ok L _ _ _ _ _ _ (Cmod l + 1) (101 / 100) CL CD ltac:(lra) ltac:(rewrite Cmod_1; lra) ltac:(rewrite Cmod_1; lra) ltac:(lra)) as CP. replace (Cmult l (RtoC 1)) with l in CP by ring.
    eapply CM_weak; [exact CP|]. replace ((Cmod l + 1) * (8 * u)) with (8 * (u * Cmod l) + 8 * u) by ring. replace (u * ((Cmod l + 1) * (101 / 100))) with (101 / 100 * (u * Cmod l) + 101 / 100 * u) by field. replace (4 * u * Cmod l) with (4 * (u * Cmod l)) by ring. replace (16 * u * Cmod l) with (16 * (u * Cmod l)) by ring. lra.
Qed.

(** ** the polynomial *)
End C.
Definition Qcode (N : num) (u : cpx N) : cpx N :=
  let u2 := cmul N u u in cadd N u (cmul N u2 (cadd_rc N (aref N (cLi2_d_bf N) 0) (cmul N u (chorner N 1 u2 (cLi2_d_bf N))))).
Definition xQ1 : ex := Eval vm_compute in fst (Qcode NumE (V 0, V 1)).
Definition xQ2 : ex := Eval vm_compute in snd (Qcode NumE (V 0, V 1)).
Lemma splitQ (N : num) z0 (x y : N) : Qcode N (x, y) = (evalN N (fun i => nth i [x; y] z0) xQ1, evalN N (fun i => nth i [x; y] z0) xQ2).
Proof. reflexivity. Qed.
Definition ubox : bnd := Bnd (- (11 * SH / 10) - 1) (11 * SH / 10 + 1) (55 * 2 ^ 87).
Definition okQ (b : bnd) : bool := ((er b <=? 149 * 2 ^ 87) && (- (187 * SH / 100) <=? lo b) && (hi b <=? 187 * SH / 100))%Z.
Lemma ckQ1 : checkp 53 xQ1 [[ubox; ubox]] okQ = true. Proof. vm_compute. reflexivity. Qed.
Lemma ckQ2 : checkp 53 xQ2 [[ubox; ubox]] okQ = true. Proof. vm_compute. reflexivity. Qed.
Lemma Qcode_R e W : Qcode (NumR e) (ofC e W) = ofC e (Qd W).
Proof. unfold Qcode, Qd. cbv zeta. rewrite cLi2_d_bf_eq. apply b2_Q. cbn [T_cLi2_d_bf length]. lia. Qed.
Lemma nth2 (a b : R) i : nth i [Some a; Some b] (Some 0) = Some (nth i [a; b] 0).
Proof. destruct i as [|[|[|i]]]; reflexivity. Qed.
Lemma xQ_R W : evalR (fun i => nth i [fst W; snd W] 0) xQ1 = fst (Qd W) /\ evalR (fun i => nth i [fst W; snd W] 0) xQ2 = snd (Qd W).
Proof.
  pose proof (Qcode_R 0 W) as Q. unfold ofC at 1 in Q. rewrite (splitQ (NumR 0) (Some 0)) in Q.
  rewrite !(evalN_ext (NumR 0) _ _ _ (nth2 (fst W) (snd W))) in Q. unfold ofC in Q. apply pair_equal_spec in Q. destruct Q as [Q1 Q2]. split; eapply evalN_R; eassumption.
Qed.
Lemma sc_u : u * sc = IZR (2 ^ 87).
Proof. rewrite sc_bpow. unfold Fcalc.u. rewrite <- bpow_plus. change (2 ^ 87)%Z with (Zpower radix2 87). rewrite IZR_Zpower by lia. reflexivity. Qed.
Lemma sc_IZR : sc = IZR SH. Proof. reflexivity. Qed.

(** the order of operations of the C function *)
Definition QcodeC (N : num) (u : cpx N) : cpx N :=
  let u2 := cmul N u u in let u4 := cmul N u2 u2 in
  cadd N u (cmul N u2 (cadd_rc N (aref N (c_cli2_d_bf N) 0) (cmul N u (cadd_rc N (aref N (c_cli2_d_bf N) 1) (cmul N u2 (cadd N (cadd N (cadd_rc N (aref N (c_cli2_d_bf N) 2) (cmul_cr N u2 (aref N (c_cli2_d_bf N) 3))) (cmul N u4 (cadd_rc N (aref N (c_cli2_d_bf N) 4) (cmul_cr N u2 (aref N (c_cli2_d_bf N) 5))))) (cmul N (cmul N u4 u4) (cadd N (cadd_rc N (aref N (c_cli2_d_bf N) 6) (cmul_cr N u2 (aref N (c_cli2_d_bf N) 7))) (cmul N u4 (cadd_rc N (aref N (c_cli2_d_bf N) 8) (cmul_cr N u2 (aref N (c_cli2_d_bf N) 9)))))))))))).
Definition xC1 : ex := Eval vm_compute in fst (QcodeC NumE (V 0, V 1)).
Definition xC2 : ex := Eval vm_compute in snd (QcodeC NumE (V 0, V 1)).
Lemma splitC (N : num) z0 (x y : N) : QcodeC N (x, y) = (evalN N (fun i => nth i [x; y] z0) xC1, evalN N (fun i => nth i [x; y] z0) xC2).
Proof. reflexivity. Qed.
Lemma ckC1 : checkp 53 xC1 [[ubox; ubox]] okQ = true. Proof. vm_compute. reflexivity. Qed.
Lemma ckC2 : checkp 53 xC2 [[ubox; ubox]] okQ = true. Proof. vm_compute. reflexivity. Qed.
Lemma QcodeC_R e W : QcodeC (NumR e) (ofC e W) = ofC e (Qd W).
Proof. unfold QcodeC, Qd. cbv zeta. rewrite c_cli2_d_bf_eq. exact (Q_c_cli2_d e W). Qed.
Lemma xC_R W : evalR (fun i => nth i [fst W; snd W] 0) xC1 = fst (Qd W) /\ evalR (fun i => nth i [fst W; snd W] 0) xC2 = snd (Qd W).
Proof.
  pose proof (QcodeC_R 0 W) as Q. unfold ofC at 1 in Q. rewrite (splitC (NumR 0) (Some 0)) in Q.
  rewrite !(evalN_ext (NumR 0) _ _ _ (nth2 (fst W) (snd W))) in Q. unfold ofC in Q. apply pair_equal_spec in Q. destruct Q as [Q1 Q2]. split; eapply evalN_R; eassumption.
Qed.

(** the same with the table of the Fortran function *)
Definition QcodeF (N : num) (u : cpx N) : cpx N :=
  let u2 := cmul N u u in let u4 := cmul N u2 u2 in
  cadd N u (cmul N u2 (cadd_rc N (aref N (f_cdli2_bf N) 0) (cmul N u (cadd_rc N (aref N (f_cdli2_bf N) 1) (cmul N u2 (cadd N (cadd N (cadd_rc N (aref N (f_cdli2_bf N) 2) (cmul_cr N u2 (aref N (f_cdli2_bf N) 3))) (cmul N u4 (cadd_rc N (aref N (f_cdli2_bf N) 4) (cmul_cr N u2 (aref N (f_cdli2_bf N) 5))))) (cmul N (cmul N u4 u4) (cadd N (cadd_rc N (aref N (f_cdli2_bf N) 6) (cmul_cr N u2 (aref N (f_cdli2_bf N) 7))) (cmul N u4 (cadd_rc N (aref N (f_cdli2_bf N) 8) (cmul_cr N u2 (aref N (f_cdli2_bf N) 9)))))))))))).
Definition xF1 : ex := Eval vm_compute in fst (QcodeF NumE (V 0, V 1)).
Definition xF2 : ex := Eval vm_compute in snd (QcodeF NumE (V 0, V 1)).
Lemma splitF (N : num) z0 (x y : N) : QcodeF N (x, y) = (evalN N (fun i => nth i [x; y] z0) xF1, evalN N (fun i => nth i [x; y] z0) xF2).
Proof. reflexivity. Qed.
Lemma ckF1 : checkp 53 xF1 [[ubox; ubox]] okQ = true. Proof. vm_compute. reflexivity. Qed.
Lemma ckF2 : checkp 53 xF2 [[ubox; ubox]] okQ = true. Proof. vm_compute. reflexivity. Qed.
Lemma QcodeF_R e W : QcodeF (NumR e) (ofC e W) = ofC e (Qd W).
Proof. unfold QcodeF, Qd. cbv zeta. rewrite f_cdli2_bf_eq. exact (Q_f_cdli2 e W). Qed.
Lemma xF_R W : evalR (fun i => nth i [fst W; snd W] 0) xF1 = fst (Qd W) /\ evalR (fun i => nth i [fst W; snd W] 0) xF2 = snd (Qd W).
Proof.
  pose proof (QcodeF_R 0 W) as Q. unfold ofC at 1 in Q. rewrite (splitF (NumR 0) (Some 0)) in Q.
  rewrite !(evalN_ext (NumR 0) _ _ _ (nth2 (fst W) (snd W))) in Q. unfold ofC in Q. apply pair_equal_spec in Q. destruct Q as [Q1 Q2]. split; eapply evalN_R; eassumption.
Qed.

Section Q.
Variable L : libm 53 1024.
Hypothesis HL : libm_ok (Hp := Hp53) (He := He53) L.
Notation N := (B64 L).
Notation val := (val L).
Notation CM := (CM L).
Notation finc := (finc L).
Lemma rel_box f x : A f x (55 * u) -> Rabs x <= 11 / 10 -> rel 53 1024 ubox x f.
Proof.
  intros [F D] X. apply Rabs_le_between in X. split; [exact F|]. unfold ubox. cbn [lo hi er]. pose proof sc_u as SU. assert (S0 : 0 < sc) by (rewrite sc_bpow; apply bpow_gt_0). split.
  - assert (B : 11 / 10 * sc <= IZR (11 * SH / 10 + 1)). { rewrite sc_IZR. apply Rmult_le_reg_l with 10; [lra|]. replace (10 * (11 / 10 * IZR SH)) with (IZR (11 * SH)) by (rewrite mult_IZR; field). rewrite <- mult_IZR. apply IZR_le. vm_compute. discriminate. }
    assert (B' : IZR (- (11 * SH / 10) - 1) = - IZR (11 * SH / 10 + 1)) by (rewrite <- opp_IZR; f_equal; lia). rewrite B'. assert (x * sc <= 11 / 10 * sc) by (apply Rmult_le_compat_r; lra). assert (- (11 / 10) * sc <= x * sc) by (apply Rmult_le_compat_r; lra). lra.
  - rewrite mult_IZR, <- SU, <- Rmult_assoc. apply Rmult_le_compat_r; lra.
Qed.
Lemma rel_out b v f : okQ b = true -> rel 53 1024 b v f -> A f v (149 * u) /\ Rabs v <= 187 / 100.
Proof.
  intros O (F & [B1 B2] & D). unfold okQ in O. rewrite !andb_true_iff, !Z.leb_le in O. destruct O as [[O1 O2] O3]. apply IZR_le in O1, O2, O3. pose proof sc_u as SU. assert (S0 : 0 < sc) by (rewrite sc_bpow; apply bpow_gt_0).
  assert (B : IZR (187 * SH / 100) <= 187 / 100 * sc). { rewrite sc_IZR. apply Rmult_le_reg_l with 100; [lra|]. replace (100 * (187 / 100 * IZR SH)) with (IZR (187 * SH)) by (rewrite mult_IZR; field). rewrite <- mult_IZR. apply IZR_le. vm_compute. discriminate. }
  rewrite opp_IZR in O2. rewrite mult_IZR, <- SU in O1. split.
  - split; [exact F|]. apply Rmult_le_reg_r with sc; [exact S0|]. eapply Rle_trans; [exact D|]. eapply Rle_trans; [exact O1|]. right. ring.
  - apply Rabs_le. split; apply Rmult_le_reg_r with sc; try exact S0; lra.
Qed.
Lemma Q_ok uf W e : CM uf W e -> e <= 55 * u -> Cmod W <= 11 / 10 -> CM (Qcode N uf) (Qd W) (225 * u) /\ Cmod (Qd W) <= 3.
Proof.
  intros C E HW. assert (C' : CM uf W (55 * u)) by (eapply CM_weak; eassumption). clear C E. pose proof (CM_1 _ _ _ _ C') as A1. pose proof (CM_2 _ _ _ _ C') as A2.
  pose proof (Cmod_fst W) as W1. pose proof (Cmod_snd W) as W2.
  assert (RL : forall i, (i < length [ubox; ubox])%nat -> rel 53 1024 (nth i [ubox; ubox] (Bnd 0 0 0)) (nth i [fst W; snd W] 0) (nth i [fst uf; snd uf] (B754_zero false))).
  { intros [|[|i]] Hi; cbn [nth]; [apply rel_box; [exact A1|lra]|apply rel_box; [exact A2|lra]|cbn [length] in Hi; lia]. }
  destruct (checkp_ok 53 1024 Hp53 He53 ltac:(lia) ltac:(lia) ltac:(lia) L xQ1 _ _ [ubox; ubox] [fst W; snd W] [fst uf; snd uf] ckQ1 (or_introl eq_refl) eq_refl eq_refl RL) as (b1 & P1 & R1).
  destruct (checkp_ok 53 1024 Hp53 He53 ltac:(lia) ltac:(lia) ltac:(lia) L xQ2 _ _ [ubox; ubox] [fst W; snd W] [fst uf; snd uf] ckQ2 (or_introl eq_refl) eq_refl eq_refl RL) as (b2 & P2 & R2).
  destruct (xQ_R W) as [E1 E2]. rewrite E1 in R1. rewrite E2 in R2. destruct (rel_out _ _ _ P1 R1) as [Q1 V1]. destruct (rel_out _ _ _ P2 R2) as [Q2 V2].
  assert (SP : Qcode N uf = (evalN N (fun i => nth i [fst uf; snd uf] (B754_zero false)) xQ1, evalN N (fun i => nth i [fst uf; snd uf] (B754_zero false)) xQ2)) by (destruct uf as [x y]; apply splitQ).
  rewrite SP. pose proof u_b as UB. split.
  - eapply CM_weak; [apply CM_comp; cbn [fst snd]; [exact Q1|exact Q2]|lra].
  - eapply Rle_trans; [apply (Cmod_comp _ (187 / 100)); assumption|lra].
Qed.
Lemma QC_ok uf W e : CM uf W e -> e <= 55 * u -> Cmod W <= 11 / 10 -> CM (QcodeC N uf) (Qd W) (225 * u) /\ Cmod (Qd W) <= 3.
Proof.
  intros C E HW. assert (C' : CM uf W (55 * u)) by (eapply CM_weak; eassumption). clear C E. pose proof (CM_1 _ _ _ _ C') as A1. pose proof (CM_2 _ _ _ _ C') as A2.
  pose proof (Cmod_fst W) as W1. pose proof (Cmod_snd W) as W2.
  assert (RL : forall i, (i < length [ubox; ubox])%nat -> rel 53 1024 (nth i [ubox; ubox] (Bnd 0 0 0)) (nth i [fst W; snd W] 0) (nth i [fst uf; snd uf] (B754_zero false))).
  { intros [|[|i]] Hi; cbn [nth]; [apply rel_box; [exact A1|lra]|apply rel_box; [exact A2|lra]|cbn [length] in Hi; lia]. }
  destruct (checkp_ok 53 1024 Hp53 He53 ltac:(lia) ltac:(lia) ltac:(lia) L xC1 _ _ [ubox; ubox] [fst W; snd W] [fst uf; snd uf] ckC1 (or_introl eq_refl) eq_refl eq_refl RL) as (b1 & P1 & R1).
  destruct (checkp_ok 53 1024 Hp53 He53 ltac:(lia) ltac:(lia) ltac:(lia) L xC2 _ _ [ubox; ubox] [fst W; snd W] [fst uf; snd uf] ckC2 (or_introl eq_refl) eq_refl eq_refl RL) as (b2 & P2 & R2).
  destruct (xC_R W) as [E1 E2]. rewrite E1 in R1. rewrite E2 in R2. destruct (rel_out _ _ _ P1 R1) as [Q1 V1]. destruct (rel_out _ _ _ P2 R2) as [Q2 V2].
  assert (SP : QcodeC N uf = (evalN N (fun i => nth i [fst uf; snd uf] (B754_zero false)) xC1, evalN N (fun i => nth i [fst uf; snd uf] (B754_zero false)) xC2)) by (destruct uf as [x y]; apply splitC).
  rewrite SP. pose proof u_b as UB. split.
  - eapply CM_weak; [apply CM_comp; cbn [fst snd]; [exact Q1|exact Q2]|lra].
  - eapply Rle_trans; [apply (Cmod_comp _ (187 / 100)); assumption|lra].
Qed.
Lemma QF_ok uf W e : CM uf W e -> e <= 55 * u -> Cmod W <= 11 / 10 -> CM (QcodeF N uf) (Qd W) (225 * u) /\ Cmod (Qd W) <= 3.
Proof.
  intros C E HW. assert (C' : CM uf W (55 * u)) by (eapply CM_weak; eassumption). clear C E. pose proof (CM_1 _ _ _ _ C') as A1. pose proof (CM_2 _ _ _ _ C') as A2.
  pose proof (Cmod_fst W) as W1. pose proof (Cmod_snd W) as W2.
  assert (RL : forall i, (i < length [ubox; ubox])%nat -> rel 53 1024 (nth i [ubox; ubox] (Bnd 0 0 0)) (nth i [fst W; snd W] 0) (nth i [fst uf; snd uf] (B754_zero false))).
  { intros [|[|i]] Hi; cbn [nth]; [apply rel_box; [exact A1|lra]|apply rel_box; [exact A2|lra]|cbn [length] in Hi; lia]. }
  destruct (checkp_ok 53 1024 Hp53 He53 ltac:(lia) ltac:(lia) ltac:(lia) L xF1 _ _ [ubox; ubox] [fst W; snd W] [fst uf; snd uf] ckF1 (or_introl eq_refl) eq_refl eq_refl RL) as (b1 & P1 & R1).
  destruct (checkp_ok 53 1024 Hp53 He53 ltac:(lia) ltac:(lia) ltac:(lia) L xF2 _ _ [ubox; ubox] [fst W; snd W] [fst uf; snd uf] ckF2 (or_introl eq_refl) eq_refl eq_refl RL) as (b2 & P2 & R2).
  destruct (xF_R W) as [E1 E2]. rewrite E1 in R1. rewrite E2 in R2. destruct (rel_out _ _ _ P1 R1) as [Q1 V1]. destruct (rel_out _ _ _ P2 R2) as [Q2 V2].
  assert (SP : QcodeF N uf = (evalN N (fun i => nth i [fst uf; snd uf] (B754_zero false)) xF1, evalN N (fun i => nth i [fst uf; snd uf] (B754_zero false)) xF2)) by (destruct uf as [x y]; apply splitF).
  rewrite SP. pose proof u_b as UB. split.
  - eapply CM_weak; [apply CM_comp; cbn [fst snd]; [exact Q1|exact Q2]|lra].
  - eapply Rle_trans; [apply (Cmod_comp _ (187 / 100)); assumption|lra].
Qed.
End Q.
