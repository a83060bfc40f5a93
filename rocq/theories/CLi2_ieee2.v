(** * The complex dilogarithm in IEEE double arithmetic: the branches *)
From Coq Require Import ZArith Reals Bool Lia Lra Psatz List.
From Coquelicot Require Import Coquelicot.
From Interval Require Import Tactic.
From Flocq Require Import Core Relative Sterbenz Mult_error IEEE754.BinarySingleNaN.
From Verif Require Import Num NumR Eval_R NumB NumB_facts Proof_Float Libm Ferr FerrB Fcalc Consts Cplx Ccalc CLi CLi_T CLi_region CLi_inst CLi2_acc CLi2_inst CLi2_slack Model_LiC Ieee Proof_Li2 Li2_ieee Li2_inst Li34_ieee Cieee CLi2_ieee.
Import ListNotations.
Local Open Scope R_scope.

(** the branches of the function, for any way [Qx] to evaluate the polynomial, [Yx] to compute -1/z, [Rx] to compute -l^2/2, and for a constant [P6] near pi^2/6 *)
Section Code.
Variable N : num.
Variables (Qx Yx Rx : cpx N -> cpx N) (P6 : N).
Definition TcodeN (z : cpx N) : cpx N := cmul N z (cadd_rc N (lit N 1 0) (cmul_rc N (lit N 25 (-2)) z)).
Definition DcodeN (z : cpx N) : cpx N := cadd N (cmul_rc N (lit N 1 0) (Qx (copp N (clog1p N (copp N z))))) (lit N 0 0, lit N 0 0).
Definition IcodeN (z : cpx N) : cpx N := cadd N (cmul_rc N (lit N (-1) 0) (Qx (copp N (clog1p N (Yx z))))) (csub_cr N (Rx (clog N (copp N z))) P6).
Definition NcodeN (z : cpx N) : cpx N := let uf := copp N (clog N z) in
  cadd N (cmul_rc N (lit N (-1) 0) (Qx uf)) (cadd_cr N (cmul N uf (clog1p N (copp N z))) P6).
Definition FcodeN (z : cpx N) : cpx N :=
  let nz := cnorm N z in let rz := fst z in
  if ltb N nz (eps N) then TcodeN z
  else if leb N rz (lit N 5 (-1)) then (if ltb N (lit N 1 0) nz then IcodeN z else DcodeN z)
  else if leb N nz (mul N (lit N 2 0) rz) then NcodeN z else IcodeN z.
Definition Y1 (z : cpx N) : cpx N := cdiv_rc N (lit N (-1) 0) z.
Definition Y2 (z : cpx N) : cpx N := copp N (cdiv_rc N (lit N 1 0) z).
Definition R1 (l : cpx N) : cpx N := cmul N (cmul_rc N (lit N (-5) (-1)) l) l.
Definition R2 (l : cpx N) : cpx N := copp N (cmul_rc N (lit N 5 (-1)) (cmul N l l)).
Definition pi6 (pi : N) : N := div N (mul N pi pi) (lit N 6 0).
End Code.
Notation Qd := CLi2_slack.Qd.
Section C.
Variable L : libm 53 1024.
Hypothesis HL : libm_ok (Hp := Hp53) (He := He53) L.
Notation N := (B64 L).
Local Notation NN := (NumB 53 1024 Hp53 He53 L).
Notation val := (val L).
Notation CM := (CM L).
Notation finc := (finc L).

(** pi^2/6 *)
Lemma pi6_A : A (pi6 N (lit N 31415926535897932 (-16))) (PI * PI / 6) (95 / 10 * u).
Proof.
  assert (DP : Rabs (litR 31415926535897932 (-16) - PI) <= 39 / 10 ^ 18).
  { eapply Rle_trans; [apply PI_lit with (d := 385 / 10 ^ 19)|lra]. p10 16%nat. apply Rabs_le. lra. }
  assert (CK : check 53 (EDiv (EMul (K 31415926535897932 (-16)) (K 31415926535897932 (-16))) (K 6 0)) [[]] (34 * 2 ^ (138 - 53)) = true) by (vm_compute; reflexivity).
  assert (P : A (evalN N (fun _ => B754_zero false) (EDiv (EMul (K 31415926535897932 (-16)) (K 31415926535897932 (-16))) (K 6 0))) (1 * (PI * PI / IZR 6)) ((IZR 34 / 4 + 1) * u)).
  { refine (pi_const 53 1024 Hp53 He53 L 31415926535897932 (-16) _ 1 6 34 _ ltac:(lia) ltac:(lia) ltac:(lia) DP _ _ ltac:(lia) (or_introl eq_refl) CK (or_introl (conj eq_refl eq_refl))); [lra|pose proof u_val; lra]. }
  clear CK DP. unfold pi6. rewrite Rmult_1_l in P. cbn [evalN] in P. eapply A_weak; [exact P|lra].
Qed.
Lemma pi6_b : 0 <= PI * PI / 6 <= 165 / 100. Proof. split; interval. Qed.

(** multiplication by a real constant, exact for +-1 *)
Lemma mul_exact (x r : fl) : is_finite x = true -> is_finite r = true -> Rabs (B2R r) = 1 -> Rabs (B2R x) <= 10 ^ 30 -> is_finite (mul N x r) = true /\ B2R (mul N x r) = B2R x * B2R r.
Proof.
  intros F1 F2 R1 HX. destruct (mul_r 53 1024 Hp53 He53 ltac:(lia) ltac:(lia) ltac:(lia) L x r F1 F2) as [P Q].
  { apply big_le. rewrite Rabs_mult, R1. lra. }
  split; [exact P|]. change (mul N x r) with (mul NN x r). rewrite Q. apply round_generic; [apply valid_rnd_N|].
  destruct (Rle_dec 0 (B2R r)) as [G|G]; [rewrite Rabs_pos_eq in R1 by exact G; rewrite R1, Rmult_1_r; apply generic_format_B2R|].
  rewrite Rabs_left in R1 by lra. replace (B2R x * B2R r) with (- B2R x) by (replace (B2R r) with (-1) by lra; ring). apply generic_format_opp, generic_format_B2R.
Qed.
Lemma csgn_ok r s z Z e : is_finite r = true -> B2R r = s -> Rabs s = 1 -> CM z Z e -> Cmod Z + e <= 10 ^ 29 -> CM (cmul_rc N r z) (Cmult (RtoC s) Z) e.
Proof.
  intros Fr Vr S1 C HZ. pose proof (CM_mod _ _ _ _ C) as M. destruct C as [[F1 F2] D]. pose proof (Cmod_fst (val z)) as Z1. pose proof (Cmod_snd (val z)) as Z2.
  destruct (mul_exact (fst z) r F1 Fr ltac:(rewrite Vr; exact S1)) as [P1 Q1]. { change (fst (val z)) with (B2R (fst z)) in Z1. lra. }
  destruct (mul_exact (snd z) r F2 Fr ltac:(rewrite Vr; exact S1)) as [P2 Q2]. { change (snd (val z)) with (B2R (snd z)) in Z2. lra. }
  split; [split; assumption|]. replace (val (cmul_rc N r z)) with (Cmult (RtoC s) (val z)).
  - replace (Cminus (Cmult (RtoC s) (val z)) (Cmult (RtoC s) Z)) with (Cmult (RtoC s) (Cminus (val z) Z)) by ring. rewrite Cmod_mult, Cmod_R, S1. lra.
  - unfold Cieee.val, cmul_rc. cbn [fst snd]. rewrite Q1, Q2, Vr. unfold Cmult, RtoC. cbn [fst snd]. f_equal; ring.
Qed.
Lemma cmhalf_ok r s z Z e X : is_finite r = true -> B2R r = s -> Rabs s = / 2 -> CM z Z e -> Cmod Z + e <= X -> X <= 10 ^ 29 -> CM (cmul_rc N r z) (Cmult (RtoC s) Z) (e / 2 + 3 / 4 * (u * X) + 2 * eta).
Proof.
  intros Fh Vh AH C HX HB. pose proof (CM_mod _ _ _ _ C) as M. destruct C as [[F1 F2] D]. pose proof u_b as UB. pose proof eta_1 as ET.
  pose proof (Cmod_fst (val z)) as Z1. pose proof (Cmod_snd (val z)) as Z2. change (fst (val z)) with (B2R (fst z)) in Z1. change (snd (val z)) with (B2R (snd z)) in Z2. pose proof (Cmod_ge_0 (val z)) as M0.
  pose proof (A_mulx L (fst z) (r) (X / 2) F1 Fh ltac:(rewrite Vh, Rabs_mult, AH; lra) ltac:(lra)) as A1. pose proof (A_mulx L (snd z) (r) (X / 2) F2 Fh ltac:(rewrite Vh, Rabs_mult, AH; lra) ltac:(lra)) as A2.
  rewrite Vh in A1, A2.
  assert (CC : CM (cmul_rc N r z) (Cmult (RtoC s) (val z)) (3 / 2 * (u * (X / 2) + eta))).
  { apply CM_comp; [refine (eq_ind _ (fun x => A _ x _) A1 _ _)|refine (eq_ind _ (fun x => A _ x _) A2 _ _)]; unfold Cmult, RtoC, Cieee.val; cbn [fst snd]; ring. }
  refine (CM_weak _ _ _ _ _ (CM_move _ _ _ _ _ (e / 2) CC _) _); [|lra].
  replace (Cminus (Cmult (RtoC s) (val z)) (Cmult (RtoC s) Z)) with (Cmult (RtoC s) (Cminus (val z) Z)) by ring. rewrite Cmod_mult, Cmod_R, AH. lra.
Qed.
(** -1/z and -l^2/2, in two orders of operations *)
Lemma R1_ok lz LZ : let l := Cmod LZ in l <= 40 -> CM lz LZ (58 / 10 * u + 4 * u * l) -> CM (R1 N lz) (Cmult (RtoC (- / 2)) (Cmult LZ LZ)) (u * (/ 4 + 7 * l + 65 / 10 * (l * l))).
Proof.
  intros l LB CL. pose proof u_b as UB. pose proof eta_1 as ET. assert (L0 : 0 <= l) by apply Cmod_ge_0. destruct (mhalf_v L) as [Fh Vh].
  assert (q0 : 0 <= u * l <= 40 * u) by (split; [apply Rmult_le_pos; lra|rewrite Rmult_comm; apply Rmult_le_compat_r; lra]).
  assert (s0 : 0 <= u * (l * l) <= 1600 * u). { split; [apply Rmult_le_pos; [lra|apply Rmult_le_pos; lra]|]. rewrite Rmult_comm. apply Rmult_le_compat_r; [lra|]. apply Rle_trans with (40 * 40); [apply Rmult_le_compat; lra|lra]. }
  pose proof (cmhalf_ok _ _ _ _ _ (l + 1) Fh Vh ltac:(rewrite Rabs_left; lra) CL ltac:(fold l; lra) ltac:(lra)) as CH.
  assert (HL' : Cmod (Cmult (RtoC (- / 2)) LZ) = l / 2) by (rewrite Cmod_mult, Cmod_R, Rabs_left by lra; fold l; lra).
  pose proof (cmul_ok L _ _ _ _ _ _ (l / 2 + / 100) (l + / 100) CH CL ltac:(rewrite HL'; lra) ltac:(fold l; lra) ltac:(fold l; lra) ltac:(apply Rle_trans with (100 * 100); [apply Rmult_le_compat; lra|lra])) as CP.
  assert (el : 0 <= eta * l <= 40 * eta) by (split; [apply Rmult_le_pos; lra|rewrite Rmult_comm; apply Rmult_le_compat_r; lra]).
  replace (Cmult (RtoC (- / 2)) (Cmult LZ LZ)) with (Cmult (Cmult (RtoC (- / 2)) LZ) LZ) by ring. eapply CM_weak; [exact CP|]. lra.
Qed.
Lemma R2_ok lz LZ : let l := Cmod LZ in l <= 40 -> CM lz LZ (58 / 10 * u + 4 * u * l) -> CM (R2 N lz) (Cmult (RtoC (- / 2)) (Cmult LZ LZ)) (u * (/ 4 + 7 * l + 65 / 10 * (l * l))).
Proof.
  intros l LB CL. pose proof u_b as UB. pose proof eta_1 as ET. assert (L0 : 0 <= l) by apply Cmod_ge_0. destruct (half_v L) as [Fh Vh].
  assert (q0 : 0 <= u * l <= 40 * u) by (split; [apply Rmult_le_pos; lra|rewrite Rmult_comm; apply Rmult_le_compat_r; lra]).
  assert (s0 : 0 <= u * (l * l) <= 1600 * u). { split; [apply Rmult_le_pos; [lra|apply Rmult_le_pos; lra]|]. rewrite Rmult_comm. apply Rmult_le_compat_r; [lra|]. apply Rle_trans with (40 * 40); [apply Rmult_le_compat; lra|lra]. }
  assert (ll : 0 <= l * l <= 1600) by (split; [apply Rmult_le_pos; lra|apply Rle_trans with (40 * 40); [apply Rmult_le_compat; lra|lra]]).
  pose proof (cmul_ok L _ _ _ _ _ _ (l + / 100000) (l + / 100000) CL CL ltac:(fold l; lra) ltac:(fold l; lra) ltac:(fold l; lra) ltac:(apply Rle_trans with (100 * 100); [apply Rmult_le_compat; lra|lra])) as CP.
  assert (CP' : CM (cmul N lz lz) (Cmult LZ LZ) (u * (/ 1000 + 117 / 10 * l + 111 / 10 * (l * l)))) by (eapply CM_weak; [exact CP|]; lra).
  assert (M2 : Cmod (Cmult LZ LZ) = l * l) by apply Cmod_mult.
  pose proof (cmhalf_ok _ _ _ _ _ (l * l + / 100000) Fh Vh ltac:(rewrite Rabs_pos_eq; lra) CP' ltac:(rewrite M2; lra) ltac:(lra)) as CH. apply CM_opp in CH.
  replace (Cmult (RtoC (- / 2)) (Cmult LZ LZ)) with (Copp (Cmult (RtoC (/ 2)) (Cmult LZ LZ))) by (rewrite RtoC_opp; ring). eapply CM_weak; [exact CH|]. lra.
Qed.
Lemma Y1_ok z : finc z -> 99 / 100 <= Cmod (val z) <= 10 ^ 13 -> CM (Y1 N z) (Copp (Cinv (val z))) (8 * u). Proof. exact (cdiv_m1_ok L z). Qed.
(** 1/z negated is -1/z: rounding is symmetric *)
Lemma rnd_odd x : rnd (- x) = - rnd x. Proof. apply round_NE_opp. Qed.
Lemma Y2_ok z : finc z -> 99 / 100 <= Cmod (val z) <= 10 ^ 13 -> CM (Y2 N z) (Copp (Cinv (val z))) (8 * u).
Proof.
  intros F HM. assert (V : finc (Y2 N z) /\ val (Y2 N z) = val (Y1 N z)); [|destruct V as [F' V]; destruct (Y1_ok z F HM) as [_ D]; split; [exact F'|rewrite V; exact D]].
  pose proof u_b as U. pose proof eta_1 as ET. pose proof (Cmod_fst (val z)) as M1. pose proof (Cmod_snd (val z)) as M2. change (fst (val z)) with (B2R (fst z)) in M1. change (snd (val z)) with (B2R (snd z)) in M2.
  pose proof (cnorm_ok L z F ltac:(lra)) as [Fn Dn]. set (m := Cmod (val z)) in *. assert (mm : 98 / 100 <= m * m) by (apply Rle_trans with (99 / 100 * (99 / 100)); [lra|apply Rmult_le_compat; lra]).
  assert (um : 0 <= u * (m * m) <= / 10 ^ 15 * (m * m)) by (split; [apply Rmult_le_pos; lra|apply Rmult_le_compat_r; lra]). apply Rabs_le_between in Dn.
  destruct F as [F1 F2]. destruct (int_v L (-1) ltac:(lia)) as [Fm Vm]. destruct (int_v L 1 ltac:(lia)) as [Fo Vo].
  assert (DV : forall x : fl, is_finite x = true -> Rabs (B2R x) <= m -> is_finite (div N (mul N (lit N 1 0) x) (cnorm N z)) = true /\ is_finite (div N (mul N (lit N (-1) 0) x) (cnorm N z)) = true /\ B2R (div N (mul N (lit N (-1) 0) x) (cnorm N z)) = - B2R (div N (mul N (lit N 1 0) x) (cnorm N z))).
  { intros x Fx Hx. destruct (mul_exact x (lit N 1 0) Fx Fo ltac:(rewrite Vo; apply Rabs_R1) ltac:(lra)) as [Pa Qa]. destruct (mul_exact x (lit N (-1) 0) Fx Fm ltac:(rewrite Vm, Rabs_left; lra) ltac:(lra)) as [Pb Qb].
    assert (Ca : is_finite (mul N (lit N 1 0) x) = true /\ B2R (mul N (lit N 1 0) x) = B2R x).
    { destruct (mul_r 53 1024 Hp53 He53 ltac:(lia) ltac:(lia) ltac:(lia) L (lit N 1 0) x Fo Fx) as [P Q]; [apply big_le; rewrite Vo, Rmult_1_l; lra|]. split; [exact P|]. change (mul N (lit N 1 0) x) with (mul NN (lit N 1 0) x). rewrite Q, Vo, Rmult_1_l. apply round_generic; [apply valid_rnd_N|apply generic_format_B2R]. }
    assert (Cb : is_finite (mul N (lit N (-1) 0) x) = true /\ B2R (mul N (lit N (-1) 0) x) = - B2R x).
    { destruct (mul_r 53 1024 Hp53 He53 ltac:(lia) ltac:(lia) ltac:(lia) L (lit N (-1) 0) x Fm Fx) as [P Q]; [apply big_le; rewrite Vm, Rabs_mult, Rabs_left by lra; lra|]. split; [exact P|]. change (mul N (lit N (-1) 0) x) with (mul NN (lit N (-1) 0) x). rewrite Q, Vm. replace (-1 * B2R x) with (- B2R x) by ring. apply round_generic; [apply valid_rnd_N|apply generic_format_opp, generic_format_B2R]. }
    destruct Ca as [Fa Va], Cb as [Fb Vb]. set (n := B2R (cnorm N z)) in *. assert (n0 : 9 / 10 <= n) by lra.
    assert (QB : Rabs (B2R x / n) <= 10 ^ 30). { unfold Rdiv. rewrite Rabs_mult, (Rabs_pos_eq (/ n)) by (left; apply Rinv_0_lt_compat; lra). apply Rle_trans with (10 ^ 13 * (10 / 9)); [|lra]. apply Rmult_le_compat; [apply Rabs_pos|left; apply Rinv_0_lt_compat; lra|lra|]. apply Rle_trans with (/ (9 / 10)); [apply Rinv_le_contravar; lra|lra]. }
    destruct (div_r 53 1024 Hp53 He53 ltac:(lia) ltac:(lia) ltac:(lia) L (mul N (lit N 1 0) x) (cnorm N z) Fa) as [P1 Q1]; [fold n; lra|apply big_le; fold n; rewrite Va; exact QB|].
    destruct (div_r 53 1024 Hp53 He53 ltac:(lia) ltac:(lia) ltac:(lia) L (mul N (lit N (-1) 0) x) (cnorm N z) Fb) as [P2 Q2]; [fold n; lra|apply big_le; fold n; rewrite Vb; unfold Rdiv; rewrite Ropp_mult_distr_l_reverse, Rabs_Ropp; exact QB|].
    split; [exact P1|]. split; [exact P2|]. etransitivity; [exact Q2|]. rewrite Vb. replace (- B2R x / B2R (cnorm N z)) with (- (B2R x / B2R (cnorm N z))) by (unfold Rdiv; ring). rewrite rnd_odd. f_equal. symmetry. etransitivity; [exact Q1|]. rewrite Va. reflexivity. }
  destruct (DV (fst z) F1 M1) as (A1 & A2 & A3). destruct (DV (snd z) F2 M2) as (B1 & B2 & B3).
  set (c1 := div N (mul N (lit N 1 0) (fst z)) (cnorm N z)) in *. set (d1 := div N (mul N (lit N (-1) 0) (fst z)) (cnorm N z)) in *. set (c2 := div N (mul N (lit N 1 0) (snd z)) (cnorm N z)) in *. set (d2 := div N (mul N (lit N (-1) 0) (snd z)) (cnorm N z)) in *.
  change (Y2 N z) with (opp N c1, opp N (opp N c2)). change (Y1 N z) with (d1, opp N d2).
  destruct (opp_r 53 1024 Hp53 He53 L c1 A1) as [O1 W1]. destruct (opp_r 53 1024 Hp53 He53 L c2 B1) as [O2 W2]. destruct (opp_r 53 1024 Hp53 He53 L (opp N c2) O2) as [O3 W3]. destruct (opp_r 53 1024 Hp53 He53 L d2 B2) as [O4 W4].
  split; [split; assumption|]. unfold Cieee.val. cbn [fst snd]. f_equal.
  - etransitivity; [exact W1|]. rewrite A3. reflexivity.
  - etransitivity; [exact W3|]. symmetry. etransitivity; [exact W4|]. rewrite B3. f_equal. symmetry. exact W2.
Qed.
(** adding a real number *)
Lemma caddcr_ok z r Z R e1 e2 X : CM z Z e1 -> A r R e2 -> Cmod Z + Rabs R + e1 + e2 <= X -> X <= 10 ^ 29 -> CM (cadd_cr N z r) (Cplus Z (RtoC R)) (e1 + e2 + u * X + eta).
Proof.
  intros C AR HX HB. pose proof (CM_mod _ _ _ _ C) as M. destruct C as [[F1 F2] D]. pose proof u_b as UB. pose proof eta_1 as ET. pose proof (Cmod_fst (val z)) as Z1. change (fst (val z)) with (B2R (fst z)) in Z1.
  pose proof (Rabs_triang (B2R (fst z)) R) as T.
  pose proof (aadd L (fst z) r _ _ 0 e2 X (A_self _ _ _ F1) AR ltac:(lra) ltac:(lra)) as [P Q].
  assert (CC : CM (cadd_cr N z r) (Cplus (val z) (RtoC R)) (e2 + u * X + eta)).
  { split; [split; assumption|]. apply Cmod_re; [|unfold Cieee.val, cadd_cr, Cminus, Cplus, Copp, RtoC; cbn [fst snd]; ring].
    eapply Rle_trans; [exact Q|]. lra. }
  refine (CM_weak _ _ _ _ _ (CM_move _ _ _ _ _ e1 CC _) _); [|lra].
  replace (Cminus (Cplus (val z) (RtoC R)) (Cplus Z (RtoC R))) with (Cminus (val z) Z) by ring. exact D.
Qed.
Lemma csubcr_ok z r Z R e1 e2 X : CM z Z e1 -> A r R e2 -> Cmod Z + Rabs R + e1 + e2 <= X -> X <= 10 ^ 29 -> CM (csub_cr N z r) (Cminus Z (RtoC R)) (e1 + e2 + u * X + eta).
Proof.
  intros C AR HX HB. pose proof (CM_mod _ _ _ _ C) as M. destruct C as [[F1 F2] D]. pose proof u_b as UB. pose proof eta_1 as ET. pose proof (Cmod_fst (val z)) as Z1. change (fst (val z)) with (B2R (fst z)) in Z1.
  pose proof (Rabs_triang (B2R (fst z)) (- R)) as T. rewrite Rabs_Ropp in T.
  pose proof (asub L (fst z) r _ _ 0 e2 X (A_self _ _ _ F1) AR ltac:(unfold Rminus; lra) ltac:(lra)) as [P Q].
  assert (CC : CM (csub_cr N z r) (Cminus (val z) (RtoC R)) (e2 + u * X + eta)).
  { split; [split; assumption|]. apply Cmod_re; [|unfold Cieee.val, csub_cr, Cminus, Cplus, Copp, RtoC; cbn [fst snd]; ring].
    eapply Rle_trans; [exact Q|]. lra. }
  refine (CM_weak _ _ _ _ _ (CM_move _ _ _ _ _ e1 CC _) _); [|lra].
  replace (Cminus (Cminus (val z) (RtoC R)) (Cminus Z (RtoC R))) with (Cminus (val z) Z) by ring. exact D.
Qed.
(** the last line of the function, for either way to evaluate the polynomial *)
Definition Qgood (Qx : cpx N -> cpx N) : Prop := forall uf W e, CM uf W e -> e <= 55 * u -> Cmod W <= 11 / 10 -> CM (Qx uf) (Qd W) (225 * u) /\ Cmod (Qd W) <= 3.
Variable Qx : cpx N -> cpx N.
Hypothesis HQ : Qgood Qx.
Definition Ygood (Yx : cpx N -> cpx N) : Prop := forall z, finc z -> 99 / 100 <= Cmod (val z) <= 10 ^ 13 -> CM (Yx z) (Copp (Cinv (val z))) (8 * u).
Variable Yx : cpx N -> cpx N.
Hypothesis HY : Ygood Yx.
Definition Rgood (Rx : cpx N -> cpx N) : Prop := forall lz LZ, let l := Cmod LZ in l <= 40 -> CM lz LZ (58 / 10 * u + 4 * u * l) -> CM (Rx lz) (Cmult (RtoC (- / 2)) (Cmult LZ LZ)) (u * (/ 4 + 7 * l + 65 / 10 * (l * l))).
Variable Rx : cpx N -> cpx N.
Hypothesis HRx : Rgood Rx.
Variable P6 : N.
Hypothesis HP6 : A P6 (PI * PI / 6) (95 / 10 * u).
Local Notation Tcode := (TcodeN N).
Local Notation Dcode := (DcodeN N Qx).
Local Notation Icode := (IcodeN N Qx Yx Rx P6).
Local Notation Ncode := (NcodeN N Qx P6).
Local Notation Fcode := (FcodeN N Qx Yx Rx P6).
Lemma fin_ok r s uf W rest Rr e er X : is_finite r = true -> B2R r = s -> Rabs s = 1 -> CM uf W e -> e <= 55 * u -> Cmod W <= 11 / 10 -> CM rest Rr er -> Cmod Rr <= X -> er <= 1 -> X <= 10 ^ 20 ->
  CM (cadd N (cmul_rc N r (Qx uf)) rest) (Cplus (Cmult (RtoC s) (Qd W)) Rr) (er + 232 * u + 3 / 2 * (u * X) + 3 / 2 * (u * er)).
Proof.
  intros Fr Vr S1 C1 E1 HW C2 HR HE HX. pose proof u_b as UB. pose proof eta_1 as ET. destruct (HQ uf W e C1 E1 HW) as [CQ MQ].
  pose proof (csgn_ok r s _ _ _ Fr Vr S1 CQ ltac:(lra)) as CS. pose proof (Cmod_ge_0 Rr) as R0.
  assert (E0 : 0 <= er) by (destruct C2 as [_ C2]; eapply Rle_trans; [apply Cmod_ge_0|exact C2]).
  pose proof (cadd_ok L _ _ _ _ _ _ (X + er + 31 / 10) CS C2) as CA. eapply CM_weak; [apply CA|].
  - pose proof (Cmod_triangle (Cmult (RtoC s) (Qd W)) Rr) as T. rewrite Cmod_mult, Cmod_R, S1 in T. lra.
  - lra.
  - assert (0 <= u * er) by (apply Rmult_le_pos; lra). lra.
Qed.
(** ** constants *)
Lemma eps_v : is_finite (eps N) = true /\ B2R (eps N) = 2 * u.
Proof.
  assert (EE : B2SF (eps N) = SpecFloat.S754_finite false 4503599627370496 (- 104)) by (vm_compute; reflexivity).
  split; [rewrite <- is_finite_SF_B2SF, EE; reflexivity|]. rewrite <- SF2R_B2SF, EE. cbn [SF2R cond_Zopp]. unfold F2R. cbn [Fnum Fexp]. rewrite bp2. change (Pos.to_nat 104) with 104%nat. rewrite u_val. lra.
Qed.
Lemma quart_v : is_finite (lit N 25 (-2)) = true /\ B2R (lit N 25 (-2)) = / 4.
Proof.
  assert (EE : B2SF (blit 53 1024 Hp53 He53 25 (-2)) = SpecFloat.S754_finite false 4503599627370496 (- 54)) by (vm_compute; reflexivity).
  change (lit N 25 (-2)) with (blit 53 1024 Hp53 He53 25 (-2)). split; [rewrite <- is_finite_SF_B2SF, EE; reflexivity|]. rewrite <- SF2R_B2SF, EE. cbn [SF2R cond_Zopp]. unfold F2R. cbn [Fnum Fexp]. rewrite bp2. change (Pos.to_nat 54) with 54%nat. lra.
Qed.
Lemma above_2 (x : fl) : 2 < B2R x -> 2 + 4 * u <= B2R x.
Proof.
  intros H. assert (G2 : generic_format radix2 (SpecFloat.fexp 53 1024) 2) by (destruct (int_v L 2 ltac:(lia)) as [_ V]; rewrite <- V; apply generic_format_B2R).
  pose proof (succ_le_lt radix2 (SpecFloat.fexp 53 1024) 2 (B2R x) G2 (generic_format_B2R 53 1024 x) H) as P. eapply Rle_trans; [|exact P].
  rewrite succ_eq_pos by lra. change 2 with (bpow radix2 1) at 3. rewrite ulp_bpow. unfold SpecFloat.fexp, SpecFloat.emin. rewrite Z.max_l by lia.
  unfold Fcalc.u. change (1 + 1 - 53)%Z with (2 + - (53))%Z. rewrite bpow_plus. change (bpow radix2 2) with 4. lra.
Qed.
Lemma two_mul (x : fl) : is_finite x = true -> / 2 <= B2R x <= 10 ^ 20 -> is_finite (mul N (lit N 2 0) x) = true /\ B2R (mul N (lit N 2 0) x) = 2 * B2R x.
Proof.
  intros F HX. destruct (int_v L 2 ltac:(lia)) as [F2 V2]. destruct (mul_r 53 1024 Hp53 He53 ltac:(lia) ltac:(lia) ltac:(lia) L (lit N 2 0) x F2 F) as [P Q].
  { apply big_le. rewrite V2, Rabs_pos_eq by lra. lra. }
  split; [exact P|]. change (mul N (lit N 2 0) x) with (mul NN (lit N 2 0) x). rewrite Q, V2. apply round_generic; [apply valid_rnd_N|].
  replace (2 * B2R x) with (B2R x * bpow radix2 1) by (change (bpow radix2 1) with 2; ring).
  exact (mult_bpow_pos_exact_FLT radix2 (SpecFloat.emin 53 1024) 53 (B2R x) 1 (generic_format_B2R 53 1024 x) ltac:(lia)).
Qed.
Lemma norm_a2 z : finc z -> Cmod (val z) <= 10 ^ 14 -> 2 < B2R (fst z) -> B2R (cnorm N z) > 2 * B2R (fst z).
Proof.
  intros [F1 F2] HM HA. pose proof u_b as UB. pose proof eta_1 as ET. pose proof (above_2 _ HA) as HA2. pose proof (Cmod_fst (val z)) as M1. pose proof (Cmod_snd (val z)) as M2. change (fst (val z)) with (B2R (fst z)) in M1. change (snd (val z)) with (B2R (snd z)) in M2.
  set (a := B2R (fst z)) in *. set (b := B2R (snd z)) in *. rewrite Rabs_pos_eq in M1 by lra.
  assert (SQ : Rabs (b * b) <= 10 ^ 29). { rewrite Rabs_mult. apply Rle_trans with (10 ^ 14 * 10 ^ 14); [apply Rmult_le_compat; try apply Rabs_pos; lra|lra]. }
  assert (SA : Rabs (a * a) <= 10 ^ 29). { rewrite Rabs_mult, !Rabs_pos_eq by lra. apply Rle_trans with (10 ^ 14 * 10 ^ 14); [apply Rmult_le_compat; lra|lra]. }
  destruct (mul_r 53 1024 Hp53 He53 ltac:(lia) ltac:(lia) ltac:(lia) L (fst z) (fst z) F1 F1) as [Pa Qa]; [apply big_le; fold a; lra|].
  destruct (mul_r 53 1024 Hp53 He53 ltac:(lia) ltac:(lia) ltac:(lia) L (snd z) (snd z) F2 F2) as [Pb Qb]; [apply big_le; fold b; lra|]. fold a in Qa. fold b in Qb.
  pose proof (rnd_err 53 1024 Hp53 (a * a)) as Ea. pose proof (rnd_err 53 1024 Hp53 (b * b)) as Eb. fold u eta in Ea, Eb.
  assert (R0 : 0 <= rnd (b * b)) by (rewrite <- (rint L 0) by lia; apply rmono; fold b; nra).
  assert (UA : u * Rabs (a * a) <= 10 ^ 29 * u) by (rewrite Rmult_comm; apply Rmult_le_compat_r; lra). assert (UB' : u * Rabs (b * b) <= 10 ^ 29 * u) by (rewrite Rmult_comm; apply Rmult_le_compat_r; lra).
  assert (RA : Rabs (rnd (a * a)) <= 2 * 10 ^ 29). { replace (rnd (a * a)) with ((rnd (a * a) - a * a) + a * a) by ring. eapply Rle_trans; [apply Rabs_triang|]. lra. }
  assert (RB : Rabs (rnd (b * b)) <= 2 * 10 ^ 29). { replace (rnd (b * b)) with ((rnd (b * b) - b * b) + b * b) by ring. eapply Rle_trans; [apply Rabs_triang|]. lra. }
  destruct (add_r 53 1024 Hp53 He53 ltac:(lia) ltac:(lia) ltac:(lia) L (mul N (fst z) (fst z)) (mul N (snd z) (snd z)) Pa Pb) as [Ps Qs].
  { apply big_le. eapply Rle_trans; [apply Rabs_triang|]. change (mul N (fst z) (fst z)) with (mul NN (fst z) (fst z)). change (mul N (snd z) (snd z)) with (mul NN (snd z) (snd z)). rewrite Qa, Qb. lra. }
  assert (Qs' : B2R (cnorm N z) = rnd (rnd (a * a) + rnd (b * b))) by (etransitivity; [exact Qs|]; change (mul N (fst z) (fst z)) with (mul NN (fst z) (fst z)); change (mul N (snd z) (snd z)) with (mul NN (snd z) (snd z)); rewrite Qa, Qb; reflexivity). rewrite Qs'.
  assert (MM : rnd (a * a) <= rnd (rnd (a * a) + rnd (b * b))).
  { rewrite <- (round_generic radix2 (SpecFloat.fexp 53 1024) ZnearestE (rnd (a * a))) at 1 by (apply generic_format_round; [apply fexp_correct; exact Hp53|apply valid_rnd_N]). apply rmono. lra. }
  apply Rabs_le_between in Ea. rewrite (Rabs_pos_eq (a * a)) in Ea by nra. assert (K : a * a - u * (a * a) - eta > 2 * a); [|lra]. clear - UB ET HA HA2.
  assert (a * (2 + 4 * u) <= a * a) by (apply Rmult_le_compat_l; lra). destruct (Rle_dec a 3) as [G|G].
  - assert (a * a <= 3 * a) by (apply Rmult_le_compat_r; lra). assert (u * (a * a) <= u * (3 * a)) by (apply Rmult_le_compat_l; lra). assert (2 * u <= a * u) by (apply Rmult_le_compat_r; lra). lra.
  - assert (3 * a <= a * a) by (apply Rmult_le_compat_r; lra). assert (u * (a * a) <= / 10 * (a * a)) by (apply Rmult_le_compat_r; [apply Rmult_le_pos; lra|lra]). lra.
Qed.

(** ** the branches *)
Lemma one_v : is_finite (lit N 1 0) = true /\ B2R (lit N 1 0) = 1. Proof. exact (int_v L 1 ltac:(lia)). Qed.
Lemma m1_v : is_finite (lit N (-1) 0) = true /\ B2R (lit N (-1) 0) = -1. Proof. exact (int_v L (-1) ltac:(lia)). Qed.
Lemma zero_CM : CM (lit N 0 0, lit N 0 0) (RtoC 0) 0.
Proof.
  destruct (int_v L 0 ltac:(lia)) as [F V]. split; [split; exact F|]. replace (Cminus (val (lit N 0 0, lit N 0 0)) (RtoC 0)) with (RtoC 0); [rewrite Cmod_0; lra|].
  unfold Cieee.val. cbn [fst snd]. rewrite V. change (0, 0) with (RtoC 0). ring.
Qed.
Lemma dir_case z : finc z -> regionK (val z) -> / 10 ^ 13 <= Cmod (val z) -> CM (Dcode z) (CLi 2 (val z)) (240 * u).
Proof.
  intros F RK HM. pose proof u_b as UB. pose proof u_b2 as UB2. pose proof eta_1 as ET. destruct (val_opp L z F) as [G VO]. destruct (Q_direct _ RK) as [Q1 Q2].
  assert (C1 : CM (clog1p N (copp N z)) (Clog (Cplus (RtoC 1) (val (copp N z)))) (36 * u)).
  { apply clog1p_ok; [exact HL|exact G|rewrite VO; replace (Copp (Copp (val z))) with (val z) by ring; exact RK|rewrite VO, Cmod_opp; exact HM]. }
  apply CM_opp in C1. rewrite <- U_opp, VO in C1. replace (Copp (Copp (val z))) with (val z) in C1 by ring. destruct one_v as [F1 V1].
  pose proof (fin_ok _ 1 _ _ _ _ _ _ 0 F1 V1 Rabs_R1 C1 ltac:(lra) Q1 zero_CM ltac:(rewrite Cmod_0; lra) ltac:(lra) ltac:(lra)) as C2.
  refine (CM_weak _ _ _ _ _ (CM_move _ _ _ _ _ (2 / 10 ^ 16) C2 _) _).
  - replace (Cminus (Cplus (Cmult (RtoC 1) (Qd (U (val z)))) (RtoC 0)) (CLi 2 (val z))) with (Cminus (Qd (U (val z))) (CLi 2 (val z))) by ring. exact Q2.
  - assert (2 / 10 ^ 16 <= 2 * u) by (rewrite u_val; lra). lra.
Qed.
Lemma log_b (W : C) : / 2 <= Cmod W <= 10 ^ 13 -> Cmod (Clog W) <= 40.
Proof.
  intros H. eapply Rle_trans; [apply Cmod_le_sum|]. pose proof (Carg_abs W) as AA. change (snd (Clog W)) with (Carg W). change (fst (Clog W)) with (ln (Cmod W)). assert (PI <= 4) by interval.
  assert (Rabs (ln (Cmod W)) <= 36); [|lra]. apply Rabs_le. split.
  - apply Rle_trans with (ln (/ 2)); [interval|apply ln_le; lra].
  - apply Rle_trans with (ln (10 ^ 13)); [apply ln_le; lra|interval].
Qed.
Lemma inv_case z : finc z -> B2R (snd z) <> 0 -> 9995 / 10000 <= Cmod (val z) * Cmod (val z) -> 2 * fst (val z) <= Cmod (val z) * Cmod (val z) * (1001 / 1000) -> Cmod (val z) <= 10 ^ 12 ->
  CM (Icode z) (CLi 2 (val z)) (u * (255 + 7 * Cmod (Clog (Copp (val z))) + 8 * (Cmod (Clog (Copp (val z))) * Cmod (Clog (Copp (val z)))))).
Proof.
  intros F HB H1 H2 HM. pose proof u_b as UB. pose proof u_b2 as UB2. pose proof eta_1 as ET. destruct (val_opp L z F) as [G VO]. set (Z := val z) in *.
  assert (SB : snd Z <> 0) by exact HB. assert (Z0 : Z <> RtoC 0) by (intros E; apply SB; rewrite E; reflexivity). pose proof (Cmod_ge_0 Z) as M0. assert (M1 : 999 / 1000 <= Cmod Z) by nra.
  destruct (Q_inv Z SB H1 H2) as [Q1 Q2]. destruct m1_v as [Fm Vm].
  (* the argument of log1p *)
  set (y := Yx z). assert (CY : CM y (Copp (Cinv Z)) (8 * u)) by (apply HY; [exact F|fold Z; split; lra]). destruct CY as [FY DY]. set (Y := val y) in *.
  assert (IM : Cmod (Cinv Z) <= 1001 / 1000 /\ / 10 ^ 12 <= Cmod (Cinv Z) /\ Cmod (Cinv Z) * Cmod (Cinv Z) <= 10006 / 10000).
  { rewrite Cmod_inv by exact Z0. split; [|split].
    - apply Rle_trans with (/ (9997 / 10000)); [apply Rinv_le_contravar; [lra|nra]|lra].
    - apply Rinv_le_contravar; lra.
    - rewrite <- Rinv_mult. apply Rle_trans with (/ (9995 / 10000)); [apply Rinv_le_contravar; lra|lra]. }
  destruct IM as (I1 & I2 & I3).
  assert (I4 : fst (Cinv Z) <= 10011 / 20000).
  { pose proof (inv_regionK Z Z0 H1 H2) as _. rewrite Cmod_sq in H1, H2. clear - H1 H2. destruct Z as [a b]. cbn [fst snd] in *. unfold Cinv. cbn [fst snd]. apply Rmult_le_reg_r with (a ^ 2 + b ^ 2); [lra|]. unfold Rdiv at 1. rewrite Rmult_assoc, Rinv_l by lra. lra. }
  assert (DY' : Cmod (Cminus (Copp Y) (Cinv Z)) <= 8 * u). { replace (Cminus (Copp Y) (Cinv Z)) with (Copp (Cminus Y (Copp (Cinv Z)))) by ring. rewrite Cmod_opp. exact DY. }
  assert (YM : Cmod (Copp Y) <= Cmod (Cinv Z) + 8 * u). { replace (Copp Y) with (Cplus (Cinv Z) (Cminus (Copp Y) (Cinv Z))) by ring. eapply Rle_trans; [apply Cmod_triangle|]. lra. }
  assert (YL : Cmod (Cinv Z) - 8 * u <= Cmod (Copp Y)). { pose proof (Cmod_tri_lo (Cinv Z) (Copp Y)) as T. replace (Cminus (Cinv Z) (Copp Y)) with (Copp (Cminus (Copp Y) (Cinv Z))) in T by ring. rewrite Cmod_opp in T. lra. }
  assert (YF : fst (Copp Y) <= 501 / 1000). { pose proof (Cmod_fst (Cminus (Copp Y) (Cinv Z))) as T. change (fst (Cminus (Copp Y) (Cinv Z))) with (fst (Copp Y) - fst (Cinv Z)) in T. apply Rabs_le_between' in T || idtac. pose proof (Rle_abs (fst (Copp Y) - fst (Cinv Z))). lra. }
  assert (RK : regionK (Copp Y)). { split; [|exact YF]. pose proof (Cmod_ge_0 (Copp Y)) as Y0. apply Rle_trans with ((Cmod (Cinv Z) + 8 * u) * (Cmod (Cinv Z) + 8 * u)); [apply Rmult_le_compat; lra|].
    assert (Cmod (Cinv Z) * u <= 2 * u) by (apply Rmult_le_compat_r; lra). assert (u * u <= u) by (rewrite <- (Rmult_1_r u) at 3; apply Rmult_le_compat_l; lra). lra. }
  assert (C1 : CM (clog1p N y) (Clog (Cplus (RtoC 1) Y)) (36 * u)). { apply clog1p_ok; [exact HL|exact FY|exact RK|]. rewrite <- Cmod_opp. fold Y. lra. }
  assert (C2 : CM (clog1p N y) (Clog (Cminus (RtoC 1) (Cinv Z))) (55 * u)).
  { refine (CM_weak _ _ _ _ _ (CM_move _ _ _ _ _ (18 * u) C1 _) _); [|lra]. eapply Rle_trans; [apply (Clog_lip (49 / 100)); [lra| |]|].
    - change (fst (Cminus (RtoC 1) (Cinv Z))) with (1 - fst (Cinv Z)). lra.
    - change (fst (Cplus (RtoC 1) Y)) with (1 + fst Y). change (fst (Copp Y)) with (- fst Y) in YF. lra.
    - replace (Cminus (Cplus (RtoC 1) Y) (Cminus (RtoC 1) (Cinv Z))) with (Cminus Y (Copp (Cinv Z))) by ring. apply Rle_trans with (8 * u / (49 / 100)); [unfold Rdiv; apply Rmult_le_compat_r; lra|lra]. }
  apply CM_opp in C2. change (Copp (Clog (Cminus (RtoC 1) (Cinv Z)))) with (U (Cinv Z)) in C2.
  (* the logarithm *)
  assert (OFF : offneg (val (copp N z))). { right. rewrite VO. cbn [Copp snd]. fold Z. lra. }
  pose proof bm1000 as B0. pose proof (clog_ok L HL (copp N z) G OFF ltac:(rewrite VO, Cmod_opp; lra)) as CL. rewrite VO in CL.
  assert (LB : Cmod (Clog (Copp Z)) <= 40) by (apply log_b; rewrite Cmod_opp; lra). set (LZ := Clog (Copp Z)) in *. set (lz := clog N (copp N z)) in *. set (l := Cmod LZ) in *. assert (L0 : 0 <= l) by apply Cmod_ge_0.
  assert (q0 : 0 <= u * l <= 40 * u) by (split; [apply Rmult_le_pos; lra|rewrite Rmult_comm; apply Rmult_le_compat_r; lra]).
  assert (s0 : 0 <= u * (l * l) <= 1600 * u). { split; [apply Rmult_le_pos; [lra|apply Rmult_le_pos; lra]|]. rewrite Rmult_comm. apply Rmult_le_compat_r; [lra|]. apply Rle_trans with (40 * 40); [apply Rmult_le_compat; lra|lra]. }
  pose proof (HRx lz LZ LB CL) as CP'. cbv zeta in CP'. fold l in CP'.
  pose proof pi6_b as PB. assert (PM : Cmod (Cmult (RtoC (- / 2)) (Cmult LZ LZ)) = l * l / 2) by (rewrite !Cmod_mult, Cmod_R, Rabs_left by lra; fold l; field). 
  assert (ll : 0 <= l * l <= 1600) by (split; [apply Rmult_le_pos; lra|apply Rle_trans with (40 * 40); [apply Rmult_le_compat; lra|lra]]).
  pose proof (csubcr_ok _ _ _ _ _ _ (l * l / 2 + 2) CP' HP6 ltac:(rewrite PM, (Rabs_pos_eq (PI * PI / 6)) by lra; lra) ltac:(lra)) as CR.
  set (Rr := Cminus (Cmult (RtoC (- / 2)) (Cmult LZ LZ)) (RtoC (PI * PI / 6))) in *.
  assert (CR' : CM (csub_cr N (Rx lz) P6) Rr (u * (12 + 7 * l + 7 * (l * l)))) by (eapply CM_weak; [exact CR|]; lra).
  clear CR CP'. assert (RM : Cmod Rr <= l * l / 2 + 165 / 100). { unfold Rr, Cminus. eapply Rle_trans; [apply Cmod_triangle|]. rewrite Cmod_opp, Cmod_R, PM, Rabs_pos_eq by lra. lra. }
  pose proof (fin_ok _ (-1) _ _ _ _ _ _ _ Fm Vm ltac:(rewrite Rabs_left; lra) C2 ltac:(lra) Q1 CR' RM ltac:(lra) ltac:(lra)) as CF.
  refine (CM_weak _ _ _ _ _ (CM_move _ _ _ _ _ (2 / 10 ^ 16) CF _) _).
  - match goal with |- Cmod (Cminus ?a _) <= _ => replace a with (Cminus (Copp (Qd (U (Cinv Z)))) (Cplus (Cmult (RtoC (/ 2)) (Cmult LZ LZ)) (RtoC (PI * PI / 6)))) end; [exact Q2|]. unfold Rr. rewrite RtoC_opp. replace (RtoC (-1)) with (Copp (RtoC 1)) by (rewrite <- RtoC_opp; reflexivity). ring.
  - assert (2 / 10 ^ 16 <= 2 * u) by (rewrite u_val; lra). assert (E1 : u * (u * (12 + 7 * l + 7 * (l * l))) <= u * 1) by (apply Rmult_le_compat_l; lra). lra.
Qed.
Lemma near_case z : finc z -> B2R (snd z) <> 0 -> / 2 < B2R (fst z) <= 2 -> Cmod (val z) * Cmod (val z) <= 2 * fst (val z) + / 1000 -> (B2R (fst z) <> 1 \/ bpow radix2 (-1000) <= Rabs (B2R (snd z))) ->
  CM (Ncode z) (CLi 2 (val z)) (u * (270 + 36 * Cmod (Clog (Cminus (RtoC 1) (val z))))).
Proof.
  intros F HB H1 H2 H3. pose proof u_b as UB. pose proof u_b2 as UB2. pose proof eta_1 as ET. 
  assert (MZ : Cmod (val z) <= 21 / 10). { change (fst (val z)) with (B2R (fst z)) in H2. pose proof (Cmod_ge_0 (val z)). nra. }
  pose proof (Cmod_snd (val z)) as SZ. change (snd (val z)) with (B2R (snd z)) in SZ. destruct (clog1m_ok L HL z F H1 HB ltac:(lra) H3) as [CM1 LM]. set (Z := val z) in *.
  assert (SB : snd Z <> 0) by exact HB. assert (F1 : / 2 < fst Z <= 2) by exact H1.
  assert (WB : Cmod (Clog Z) <= 11 / 10) by (apply log_region2; lra). pose proof (Q_near Z SB WB) as Q2. destruct m1_v as [Fm Vm].
  assert (MLo : / 2 < Cmod Z) by (pose proof (Cmod_fst Z) as T; rewrite Rabs_pos_eq in T by lra; lra). pose proof bm1000 as B0.
  pose proof (clog_ok L HL z F (or_intror HB) ltac:(fold Z; lra)) as CL. fold Z in CL. set (W := Clog Z) in *.
  assert (CU : CM (copp N (clog N z)) (Copp W) (11 * u)). { apply CM_opp. eapply CM_weak; [exact CL|]. assert (u * Cmod W <= u * (11 / 10)) by (apply Rmult_le_compat_l; lra). lra. }
  set (lm := Clog (Cminus (RtoC 1) Z)) in *. set (m := Cmod lm) in *. assert (m0 : 0 <= m) by apply Cmod_ge_0. set (uf := copp N (clog N z)) in *.
  assert (q0 : 0 <= u * m <= 1000 * u) by (split; [apply Rmult_le_pos; lra|rewrite Rmult_comm; apply Rmult_le_compat_r; lra]).
  assert (WB' : Cmod (Copp W) <= 11 / 10) by (rewrite Cmod_opp; exact WB).
  pose proof (cmul_ok L _ _ _ _ _ _ (111 / 100) (m + / 100) CU CM1 ltac:(lra) ltac:(fold m; lra) ltac:(fold m; lra) ltac:(apply Rle_trans with (2 * 2000); [apply Rmult_le_compat; lra|lra])) as CP.
  assert (CP' : CM (cmul N uf (clog1p N (copp N z))) (Cmult (Copp W) lm) (u * (21 + 33 * m))) by (eapply CM_weak; [exact CP|]; lra). clear CP.
  pose proof pi6_b as PB. assert (PM : Cmod (Cmult (Copp W) lm) <= 11 / 10 * m) by (rewrite Cmod_mult; fold m; apply Rmult_le_compat_r; [exact m0|exact WB']).
  pose proof (caddcr_ok _ _ _ _ _ _ (11 / 10 * m + 2) CP' HP6 ltac:(rewrite (Rabs_pos_eq (PI * PI / 6)) by lra; lra) ltac:(lra)) as CR.
  set (Rr := Cplus (Cmult (Copp W) lm) (RtoC (PI * PI / 6))) in *.
  assert (CR' : CM (cadd_cr N (cmul N uf (clog1p N (copp N z))) P6) Rr (u * (33 + 342 / 10 * m))) by (eapply CM_weak; [exact CR|]; lra).
  clear CR CP'. assert (RM : Cmod Rr <= 11 / 10 * m + 165 / 100). { unfold Rr. eapply Rle_trans; [apply Cmod_triangle|]. rewrite Cmod_R, (Rabs_pos_eq (PI * PI / 6)) by lra. lra. }
  pose proof (fin_ok _ (-1) _ _ _ _ _ _ _ Fm Vm ltac:(rewrite Rabs_left; lra) CU ltac:(lra) WB' CR' RM ltac:(lra) ltac:(lra)) as CF.
  refine (CM_weak _ _ _ _ _ (CM_move _ _ _ _ _ (10 / 10 ^ 17) CF _) _).
  - match goal with |- Cmod (Cminus ?a _) <= _ => replace a with (Cplus (Copp (Qd (Copp W))) Rr) end; [exact Q2|]. replace (RtoC (-1)) with (Copp (RtoC 1)) by (rewrite <- RtoC_opp; reflexivity). ring.
  - assert (10 / 10 ^ 17 <= u) by (rewrite u_val; lra). assert (E1 : u * (u * (33 + 342 / 10 * m)) <= u * 1) by (apply Rmult_le_compat_l; lra). lra.
Qed.
(** z below 1e-7 *)
Lemma tiny_case z : finc z -> Cmod (val z) <= / 10 ^ 7 -> Cmod (val z) * Cmod (val z) < 21 / 10 * u -> CM (Tcode z) (CLi 2 (val z)) (10 * u).
Proof.
  intros [F1 F2] HM HS. pose proof u_b as UB. pose proof eta_1 as ET. destruct quart_v as [Fq Vq]. destruct one_v as [Fo Vo]. pose proof (Cmod_ge_0 (val z)) as M0. set (m := Cmod (val z)) in *.
  pose proof (Cmod_fst (val z)) as Z1. pose proof (Cmod_snd (val z)) as Z2. change (fst (val z)) with (B2R (fst z)) in Z1. change (snd (val z)) with (B2R (snd z)) in Z2. fold m in Z1, Z2.
  pose proof (A_mulx L (fst z) (lit N 25 (-2)) 1 F1 Fq ltac:(rewrite Vq, Rabs_mult, (Rabs_pos_eq (/ 4)) by lra; lra) ltac:(lra)) as A1.
  pose proof (A_mulx L (snd z) (lit N 25 (-2)) 1 F2 Fq ltac:(rewrite Vq, Rabs_mult, (Rabs_pos_eq (/ 4)) by lra; lra) ltac:(lra)) as A2. rewrite Vq in A1, A2.
  assert (T1 : Rabs (B2R (fst z) * / 4) <= / 10) by (rewrite Rabs_mult, (Rabs_pos_eq (/ 4)) by lra; lra).
  pose proof (Rabs_triang 1 (B2R (fst z) * / 4)) as T2. rewrite Rabs_R1 in T2.
  pose proof (aadd L _ _ _ _ 0 _ (12 / 10) (one_A L) A1 ltac:(lra) ltac:(lra)) as A3.
  assert (CC : CM (cadd_rc N (lit N 1 0) (cmul_rc N (lit N 25 (-2)) z)) (Cplus (RtoC 1) (Cmult (RtoC (/ 4)) (val z))) (3 / 2 * (3 * u))).
  { apply CM_comp.
    - refine (eq_ind _ (fun x => A _ x _) (A_weak _ _ _ _ _ _ A3 _) _ _); [lra|]. unfold Cplus, Cmult, RtoC, Cieee.val. cbn [fst snd]. ring.
    - refine (eq_ind _ (fun x => A _ x _) (A_weak _ _ _ _ _ _ A2 _) _ _); [lra|]. unfold Cplus, Cmult, RtoC, Cieee.val. cbn [fst snd]. ring. }
  assert (MC : Cmod (Cplus (RtoC 1) (Cmult (RtoC (/ 4)) (val z))) <= 11 / 10).
  { eapply Rle_trans; [apply Cmod_triangle|]. rewrite Cmod_1, Cmod_mult, Cmod_R, (Rabs_pos_eq (/ 4)) by lra. fold m. lra. }
  pose proof (cmul_ok L _ _ _ _ _ _ 1 (12 / 10) (CM_self L z (conj F1 F2)) CC ltac:(fold m; lra) ltac:(lra) ltac:(lra) ltac:(lra)) as CP.
  refine (CM_weak _ _ _ _ _ (CM_move _ _ _ _ _ (u / 2) CP _) _); [|lra].
  eapply Rle_trans; [apply (tiny_ok T_cLi2_d_bf (21 / 10 * u) (8 / 10 ^ 17) (66 / 10 ^ 18) HTd HNd ltac:(lra) (val z) HS)|].
  fold m. apply Rle_trans with (21 / 10 * u / 8 * 1); [apply Rmult_le_compat_l; lra|lra].
Qed.

(** ** the whole function *)
Definition budget (Z : C) : R := 400 + 40 * Cmod (Clog (Cminus (RtoC 1) Z)) + 30 * (ln (1 + Cmod Z) * ln (1 + Cmod Z)).
Lemma log_sq (Z : C) : 999 / 1000 <= Cmod Z -> 255 + 7 * Cmod (Clog (Copp Z)) + 8 * (Cmod (Clog (Copp Z)) * Cmod (Clog (Copp Z))) <= 400 + 30 * (ln (1 + Cmod Z) * ln (1 + Cmod Z)).
Proof.
  intros H. pose proof (Carg_abs (Copp Z)) as AA. assert (PB : PI <= 315 / 100) by interval. set (m := Cmod Z) in *.
  assert (LB : Cmod (Clog (Copp Z)) <= ln (1 + m) + 315 / 100).
  { eapply Rle_trans; [apply Cmod_le_sum|]. change (snd (Clog (Copp Z))) with (Carg (Copp Z)). change (fst (Clog (Copp Z))) with (ln (Cmod (Copp Z))). rewrite Cmod_opp. fold m.
    assert (Rabs (ln m) <= ln (1 + m)); [|lra]. apply Rabs_le. split.
    - rewrite <- ln_Rinv by lra. apply ln_le; [apply Rinv_0_lt_compat; lra|]. apply Rle_trans with (/ (3 / 2)); [apply Rinv_le_contravar; lra|lra].
    - apply ln_le; lra. }
  pose proof (Cmod_ge_0 (Clog (Copp Z))) as l0. set (l := Cmod (Clog (Copp Z))) in *. set (k := ln (1 + m)) in *. clearbody l k. clear - LB l0.
  assert (l * l <= (k + 315 / 100) * (k + 315 / 100)) by (apply Rmult_le_compat; lra). assert (0 <= k * k) by (apply Rle_0_sqr). assert (0 <= (k - 14 / 10) * (k - 14 / 10)) by (apply Rle_0_sqr). lra.
Qed.
Theorem Fcode_ok z : finc z -> B2R (snd z) <> 0 -> Cmod (val z) <= 10 ^ 12 -> (B2R (fst z) <> 1 \/ bpow radix2 (-1000) <= Rabs (B2R (snd z))) -> CM (Fcode z) (CLi 2 (val z)) (u * budget (val z)).
Proof.
  intros F HB HM H1. pose proof u_b as UB. pose proof u_b2 as UB2. pose proof eta_1 as ET. unfold budget. pose proof (Cmod_ge_0 (Clog (Cminus (RtoC 1) (val z)))) as l0. pose proof (Rle_0_sqr (ln (1 + Cmod (val z)))) as k0. unfold Rsqr in k0.
  destruct (cnorm_ok L z F ltac:(lra)) as [Fn Dn]. set (m := Cmod (val z)) in *. assert (m0 : 0 <= m) by apply Cmod_ge_0. assert (mm : 0 <= m * m <= 10 ^ 24) by (split; [apply Rmult_le_pos; lra|apply Rle_trans with (10 ^ 12 * 10 ^ 12); [apply Rmult_le_compat; lra|lra]]).
  apply Rabs_le_between in Dn. destruct F as [F1 F2]. destruct eps_v as [Fe Ve]. destruct (half_v L) as [Fh Vh]. destruct one_v as [Fo Vo].
  assert (UM : 0 <= u * (m * m) <= / 10 ^ 15 * (m * m)) by (split; [apply Rmult_le_pos; lra|apply Rmult_le_compat_r; lra]).
  unfold FcodeN. cbv zeta. rewrite (ltb_R L), Ve by assumption. set (n := B2R (cnorm N z)) in *. destruct (Rlt_bool_spec n (2 * u)) as [B|B].
  - eapply CM_weak; [apply tiny_case; [split; assumption| |]|].
    + fold m. apply Rnot_lt_le. intros G. assert (/ 10 ^ 7 * / 10 ^ 7 <= m * m) by (apply Rmult_le_compat; lra). lra.
    + fold m. lra.
    + assert (u * 400 <= u * (400 + 40 * Cmod (Clog (Cminus (RtoC 1) (val z))) + 30 * (ln (1 + m) * ln (1 + m)))) by (apply Rmult_le_compat_l; lra). lra.
  - rewrite (leb_R L), Vh by assumption. destruct (Rle_bool_spec (B2R (fst z)) (/ 2)) as [R1|R1].
    + rewrite (ltb_R L), Vo by assumption. fold n. destruct (Rlt_bool_spec 1 n) as [N1|N1].
      * assert (mlo : 9999 / 10000 <= m * m) by lra. assert (ml : 999 / 1000 <= m) by nra. pose proof (log_sq (val z) ml) as LS. fold m in LS.
        eapply CM_weak; [apply inv_case; [split; assumption|exact HB|fold m; lra|change (fst (val z)) with (B2R (fst z)); fold m; lra|fold m; lra]|]. apply Rmult_le_compat_l; lra.
      * assert (mhi : m * m <= 1001 / 1000) by lra. eapply CM_weak; [apply dir_case; [split; assumption| |]|].
        -- split; [exact mhi|]. change (fst (val z)) with (B2R (fst z)). lra.
        -- fold m. apply Rnot_lt_le. intros G. assert (m * m <= / 10 ^ 13 * / 10 ^ 13) by (apply Rmult_le_compat; lra). rewrite u_val in *. lra.
        -- assert (u * 400 <= u * (400 + 40 * Cmod (Clog (Cminus (RtoC 1) (val z))) + 30 * (ln (1 + m) * ln (1 + m)))) by (apply Rmult_le_compat_l; lra). lra.
    + pose proof (Cmod_fst (val z)) as am. change (fst (val z)) with (B2R (fst z)) in am. fold m in am. rewrite Rabs_pos_eq in am by lra.
      destruct (two_mul (fst z) F1 ltac:(lra)) as [Ft Vt]. rewrite (leb_R L), Vt by assumption. fold n. destruct (Rle_bool_spec n (2 * B2R (fst z))) as [N1|N1].
      * assert (a2 : B2R (fst z) <= 2). { apply Rnot_lt_le. intros G. pose proof (norm_a2 z (conj F1 F2) ltac:(fold m; lra) G) as K. fold n in K. lra. }
        eapply CM_weak; [apply near_case; [split; assumption|exact HB|lra|change (fst (val z)) with (B2R (fst z)); fold m; lra|exact H1]|]. apply Rmult_le_compat_l; lra.
      * assert (mlo : 2 * B2R (fst z) <= m * m * (1001 / 1000)) by lra. assert (mlo' : 9995 / 10000 <= m * m) by lra. assert (ml : 999 / 1000 <= m) by nra. pose proof (log_sq (val z) ml) as LS. fold m in LS.
        eapply CM_weak; [apply inv_case; [split; assumption|exact HB|fold m; lra|change (fst (val z)) with (B2R (fst z)); fold m; lra|fold m; lra]|]. apply Rmult_le_compat_l; lra.
Qed.
End C.
