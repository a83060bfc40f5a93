(** * Clausen functions in IEEE arithmetic: reduction, branches, error *)
From Coq Require Import ZArith Reals Bool Lia Lra Psatz List.
From Coquelicot Require Import Rcomplements.
From Interval Require Import Tactic.
From Flocq Require Import Core Relative IEEE754.BinarySingleNaN.
From Verif Require Import Num NumR NumB NumB_facts Proof_Float Libm Clausen Proof_Cl Cl_full Cl_shape Cl_branch Model_Cl16 Model_Cl Ferr FerrB Fmod.
Import ListNotations.
Local Open Scope R_scope.

(** the reduction shared by all Clausen routines *)
Section M.
Variable N : num.
Variables PI p1 : N.
Definition red1 (x : N) : N := if ltb N x (lit N 0 0) then opp N x else x.
Definition red2 (x : N) : N := if leb N (mul N (lit N 2 0) PI) x then nfmod N x (mul N (lit N 2 0) PI) else x.
Definition red3 (x : N) : N := if ltb N PI x then add N (sub N (lit N 628125 (-5)) x) p1 else x.
Definition redu (x : N) : N := red3 (red2 (red1 x)).
Definition rsgn (x : N) : N :=
  let s := if ltb N x (lit N 0 0) then lit N (-1) 0 else lit N 1 0 in if ltb N PI (red2 (red1 x)) then opp N s else s.
Lemma cl_odd_red z core x : cl_odd N PI p1 z core x = if eqb N (redu x) (lit N 0 0) then z else core (redu x).
Proof. reflexivity. Qed.
Lemma cl_even_red core x : cl_even N PI p1 core x =
  if eqb N (redu x) (lit N 0 0) then redu x else if eqb N (redu x) PI then lit N 0 0 else mul N (rsgn x) (core (redu x)).
Proof.
  unfold cl_even, redu, rsgn, red3, red2, red1. destruct (ltb N x (lit N 0 0)); cbv beta iota zeta.
  - set (b := if leb N _ _ then _ else _). destruct (ltb N PI b); reflexivity.
  - set (b := if leb N _ _ then _ else _). destruct (ltb N PI b); reflexivity.
Qed.
End M.
Lemma noflip_redu (N : num) x : range_reduce_noflip N x = redu N (Cl_PI N) (lit N 19353071795864769253 (-22)) x.
Proof. reflexivity. Qed.
Lemma flip_redu (N : num) x : range_reduce_flip N x = (rsgn N (Cl_PI N) x, redu N (Cl_PI N) (lit N 19353071795864769253 (-22)) x).
Proof.
  unfold range_reduce_flip, rsgn, redu, red3, red2, red1. change (Cl_PI2 N) with (mul N (lit N 2 0) (Cl_PI N)). destruct (ltb N x (lit N 0 0)); cbv beta iota zeta.
  - set (b := if leb N _ _ then _ else _). destruct (ltb N (Cl_PI N) b); reflexivity.
  - set (b := if leb N _ _ then _ else _). destruct (ltb N (Cl_PI N) b); reflexivity.
Qed.

Section G.
Variables prec emax : Z.
Context (Hp : Prec_gt_0 prec) (He : Prec_lt_emax prec emax).
Hypothesis prec1 : (8 < prec)%Z.
Hypothesis em4 : (prec + 4 < emax)%Z.
Notation fl := (binary_float prec emax).
Notation emin := (3 - emax - prec)%Z.
Notation fexp := (SpecFloat.fexp prec emax).
Notation rnd := (round radix2 fexp ZnearestE).
Variable L : libm prec emax.
Notation N := (NumB prec emax Hp He L).
Notation w := (bpow radix2 (2 - prec)).

Section Rd.
Variables PIf p1f : fl.
Hypothesis CK : consts_ok prec emax PIf (mul N (lit N 2 0) PIf) (lit N 628125 (-5)) p1f.
Notation P := (B2R PIf).
Notation S0 := (201 / 32 + B2R p1f).
(** the reduced argument and the sign, for every finite x *)
Lemma redu_ok (x : fl) : is_finite x = true -> exists S', Rabs (S' - S0) <= bpow radix2 (1 - prec) /\
  is_finite (redu N PIf p1f x) = true /\ 0 <= B2R (redu N PIf p1f x) <= P /\ redc P S' (B2R x) = B2R (redu N PIf p1f x) /\
  is_finite (rsgn N PIf x) = true /\ B2R (rsgn N PIf x) = sg (B2R x) * (if Rlt_dec P (redb P (B2R x)) then -1 else 1).
Proof.
  intros Fx. pose proof (c_P _ _ _ _ _ _ CK) as HP.
  destruct (red_abs prec emax Hp He prec1 x Fx) as [A1 A2]. change (if Bltb x (blit prec emax Hp He 0 0) then Bopp x else x) with (red1 N x) in A1, A2.
  destruct (red_mod prec emax Hp He prec1 PIf (mul N (lit N 2 0) PIf) (lit N 628125 (-5)) p1f CK x (red1 N x) A1 A2) as [B1 B2].
  change (if Bleb (mul N (lit N 2 0) PIf) (red1 N x) then bfmod prec emax Hp He (red1 N x) (mul N (lit N 2 0) PIf) else red1 N x) with (red2 N PIf (red1 N x)) in B1, B2.
  pose proof (redb_rng P ltac:(lra) (B2R x)) as RB. rewrite <- B2 in RB.
  pose proof (red_fold prec emax Hp He prec1 em4 PIf (mul N (lit N 2 0) PIf) (lit N 628125 (-5)) p1f CK (red2 N PIf (red1 N x)) B1 RB) as C. cbv zeta in C.
  change (if Bltb PIf (red2 N PIf (red1 N x)) then Bplus mode_NE (Bminus mode_NE (lit N 628125 (-5)) (red2 N PIf (red1 N x))) p1f else red2 N PIf (red1 N x)) with (redu N PIf p1f x) in C.
  destruct C as (C1 & C2 & C3). rewrite B2 in C3, RB.
  destruct (litZ_exact prec emax Hp He ltac:(lia) 0) as [Z0 Z1]; [cbn; lia|].
  assert (P1 : (Z.abs 1 <= 2 ^ prec)%Z /\ (Z.abs (-1) <= 2 ^ prec)%Z) by (cbn; assert (0 < 2 ^ prec)%Z by (apply Z.pow_pos_nonneg; lia); lia).
  destruct (litZ_exact prec emax Hp He ltac:(lia) 1 (proj1 P1)) as [O0 O1]. destruct (litZ_exact prec emax Hp He ltac:(lia) (-1) (proj2 P1)) as [M0 M1].
  destruct (c_fin _ _ _ _ _ _ CK) as (F1 & _).
  assert (SG : is_finite (rsgn N PIf x) = true /\ B2R (rsgn N PIf x) = sg (B2R x) * (if Rlt_dec P (redb P (B2R x)) then -1 else 1)).
  { unfold rsgn. cbv zeta. set (s := if ltb N x (lit N 0 0) then lit N (-1) 0 else lit N 1 0).
    assert (HS : is_finite s = true /\ B2R s = sg (B2R x)).
    { unfold s. change (ltb N x (lit N 0 0)) with (Bltb x (blit prec emax Hp He 0 0)). rewrite (Bltb_correct _ _ x _ Fx Z1), Z0. unfold sg.
      destruct (Rlt_bool_spec (B2R x) (IZR 0)); destruct (Rlt_dec (B2R x) 0); try lra; split; assumption. }
    destruct HS as [HS1 HS2]. change (ltb N PIf (red2 N PIf (red1 N x))) with (Bltb PIf (red2 N PIf (red1 N x))). rewrite (Bltb_correct _ _ PIf _ F1 B1), B2.
    destruct (Rlt_bool_spec P (redb P (B2R x))); destruct (Rlt_dec P (redb P (B2R x))); try lra.
    - change (opp N s) with (Bopp s). rewrite is_finite_Bopp, B2R_Bopp, HS2. split; [exact HS1|ring].
    - rewrite HS2. split; [exact HS1|ring]. }
  destruct (Rlt_dec P (redb P (B2R x))) as [Q|Q] eqn:QE.
  - exists (B2R (redu N PIf p1f x) + redb P (B2R x)). split.
    + rewrite C3. replace (rnd (S0 - redb P (B2R x)) + redb P (B2R x) - S0) with (rnd (S0 - redb P (B2R x)) - (S0 - redb P (B2R x))) by ring.
      pose proof (c_hi _ _ _ _ _ _ CK) as CH. pose proof (c_lo _ _ _ _ _ _ CK) as CL. pose proof (w_small prec prec1) as W.
      assert (VE : Valid_exp fexp) by apply (fexp_correct prec emax Hp).
      eapply Rle_trans; [apply error_le_half_ulp; exact VE|].
      pose proof (gap_lo prec emax prec1 em4 PIf (mul N (lit N 2 0) PIf) (lit N 628125 (-5)) p1f CK (red2 N PIf (red1 N x)) ltac:(rewrite B2; lra)) as GL. rewrite B2 in GL.
      assert (U : ulp radix2 fexp (S0 - redb P (B2R x)) <= w).
      { assert (MN : Monotone_exp fexp) by apply fexp_monotone.
        apply Rle_trans with (ulp radix2 fexp (bpow radix2 1 * 7 / 4)).
        - apply ulp_le; [exact VE|exact MN|]. rewrite !Rabs_pos_eq; cbn; lra.
        - rewrite ulp_neq_0 by (cbn; lra). apply bpow_le. unfold cexp. rewrite (mag_unique_pos radix2 _ 2) by (cbn; lra). rewrite (fexp_FLT prec emax). unfold FLT_exp. lia. }
      replace (bpow radix2 (1 - prec)) with (/ 2 * w); [lra|]. replace (2 - prec)%Z with (1 + (1 - prec))%Z by ring. rewrite bpow_plus. cbn [bpow]. change (Z.pow_pos radix2 1) with 2%Z. field.
    + split; [exact C1|]. split; [exact C2|]. split; [|exact SG]. unfold redc. rewrite QE. ring.
  - exists S0. split; [rewrite Rminus_eq_0, Rabs_R0; apply bpow_ge_0|]. split; [exact C1|]. split; [exact C2|]. split; [|exact SG]. unfold redc. rewrite QE, C3. reflexivity.
Qed.
Lemma redu_big (x : fl) : is_finite x = true -> 0 <= B2R (redu N PIf p1f x) <= P.
Proof. intros Fx. destruct (redu_ok x Fx) as (S' & _ & _ & H & _). exact H. Qed.

(** distance between x and the argument at which the result is accurate *)
Definition distf (x : R) : R := Rabs x / P * Rabs (P - PI) + Rabs (2 * PI - S0) + bpow radix2 (1 - prec).
Lemma Cl_redx0 n S' x : Clspec n (redx P S' x) = ((if Nat.even n then sg x else 1) * (if Rlt_dec P (redb P x) then par n else 1) * Clspec n (redc P S' x)).
Proof.
  apply (Cl_redx P S' 0 (fun o => match o with Some y => Some (Clspec n y) | None => None end) n). intros y _ _. exists (Clspec n y). split; [reflexivity|]. rewrite Rminus_eq_0, Rabs_R0. lra.
Qed.
Lemma redx_distf S' x : Rabs (S' - S0) <= bpow radix2 (1 - prec) -> Rabs (redx P S' x - x) <= distf x.
Proof.
  intros H. pose proof (c_P _ _ _ _ _ _ CK) as HP. eapply Rle_trans; [apply redx_dist; lra|]. unfold dist, distf.
  assert (Rabs (2 * PI - S') <= Rabs (2 * PI - S0) + Rabs (S' - S0)) by (replace (2 * PI - S') with ((2 * PI - S0) + - (S' - S0)) by ring; eapply Rle_trans; [apply Rabs_triang|rewrite Rabs_Ropp; lra]). lra.
Qed.
Variables (n : nat) (eps : R) (core : fl -> fl).
Hypothesis core_ok : forall x, is_finite x = true -> 0 < B2R x <= P -> is_finite (core x) = true /\ Rabs (B2R (core x) - Clspec n (B2R x)) <= eps.
Theorem even_ieee x : Nat.even n = true -> Rabs (Clspec n P) <= eps -> is_finite x = true ->
  let v := cl_even N PIf p1f core x in
  is_finite v = true /\ exists x', Rabs (B2R v - Clspec n x') <= eps /\ Rabs (x' - B2R x) <= distf (B2R x) /\ (Rabs (B2R x) <= P -> x' = B2R x).
Proof.
  intros En HE Fx. cbv zeta. rewrite cl_even_red. assert (E0 : 0 <= eps) by (eapply Rle_trans; [apply Rabs_pos|exact HE]). pose proof (c_P _ _ _ _ _ _ CK) as HP.
  destruct (redu_ok x Fx) as (S' & S1 & R1 & R2 & R3 & G1 & G2). set (r := redu N PIf p1f x) in *. set (s := rsgn N PIf x) in *.
  destruct (c_fin _ _ _ _ _ _ CK) as (F1 & _). destruct (litZ_exact prec emax Hp He ltac:(lia) 0) as [Z0 Z1]; [cbn; lia|].
  pose proof (redx_distf S' (B2R x) S1) as D. pose proof (redx_small P S' ltac:(lra) (B2R x)) as SM. pose proof (Cl_redx0 n S' (B2R x)) as F. rewrite R3, En in F. unfold par in F. rewrite En in F. rewrite <- G2 in F.
  assert (U : B2R s = 1 \/ B2R s = -1). { rewrite G2. unfold sg. destruct (Rlt_dec (B2R x) 0), (Rlt_dec P (redb P (B2R x))); lra. }
  assert (U' : Rabs (B2R s) = 1) by (destruct U as [-> | ->]; [apply Rabs_R1|rewrite Rabs_left; lra]).
  change (eqb N r (lit N 0 0)) with (Beqb r (blit prec emax Hp He 0 0)). rewrite (Beqb_correct _ _ r _ R1 Z1), Z0. destruct (Req_bool_spec (B2R r) (IZR 0)) as [Q|Q].
  { split; [exact R1|]. exists (redx P S' (B2R x)). split; [|split; assumption]. rewrite F, Q. unfold Clspec. rewrite En, Fourier.sinser_0, Rmult_0_r, Rminus_0_r, Rabs_R0. exact E0. }
  change (eqb N r PIf) with (Beqb r PIf). rewrite (Beqb_correct _ _ r _ R1 F1). destruct (Req_bool_spec (B2R r) P) as [Q2|Q2].
  { split; [exact Z1|]. exists (redx P S' (B2R x)). split; [|split; assumption]. change (lit N 0 0) with (blit prec emax Hp He 0 0). rewrite Z0, F, Q2. unfold Rminus. rewrite Rplus_0_l, Rabs_Ropp, Rabs_mult, U', Rmult_1_l. exact HE. }
  destruct (core_ok r R1 ltac:(lra)) as [K1 K2].
  assert (RM : rnd (B2R s * B2R (core r)) = B2R s * B2R (core r)).
  { destruct U as [-> | ->]; [rewrite Rmult_1_l|replace (-1 * B2R (core r)) with (- B2R (core r)) by ring]; apply round_generic; try apply valid_rnd_N; [|apply generic_format_opp]; apply generic_format_B2R. }
  destruct (Bmult_ok prec emax Hp He s (core r) G1 K1) as [M1 M2].
  { rewrite RM, Rabs_mult, U', Rmult_1_l. apply abs_B2R_lt_emax. }
  change (mul N s (core r)) with (Bmult mode_NE s (core r)). split; [exact M2|]. exists (redx P S' (B2R x)). split; [|split; assumption].
  rewrite M1, RM, F. replace (B2R s * B2R (core r) - B2R s * Clspec n (B2R r)) with (B2R s * (B2R (core r) - Clspec n (B2R r))) by ring. rewrite Rabs_mult, U', Rmult_1_l. exact K2.
Qed.
Theorem odd_ieee x (z : fl) : Nat.even n = false -> is_finite z = true -> Rabs (B2R z - Clspec n 0) <= eps -> is_finite x = true ->
  let v := cl_odd N PIf p1f z core x in
  is_finite v = true /\ exists x', Rabs (B2R v - Clspec n x') <= eps /\ Rabs (x' - B2R x) <= distf (B2R x) /\ (Rabs (B2R x) <= P -> x' = B2R x).
Proof.
  intros En Fz HE Fx. cbv zeta. rewrite cl_odd_red. pose proof (c_P _ _ _ _ _ _ CK) as HP.
  destruct (redu_ok x Fx) as (S' & S1 & R1 & R2 & R3 & _). set (r := redu N PIf p1f x) in *.
  destruct (litZ_exact prec emax Hp He ltac:(lia) 0) as [Z0 Z1]; [cbn; lia|].
  pose proof (redx_distf S' (B2R x) S1) as D. pose proof (redx_small P S' ltac:(lra) (B2R x)) as SM. pose proof (Cl_redx0 n S' (B2R x)) as F. rewrite R3, En in F. unfold par in F. rewrite En in F.
  replace (if Rlt_dec P (redb P (B2R x)) then 1 else 1) with 1 in F by (destruct (Rlt_dec P (redb P (B2R x))); reflexivity). rewrite !Rmult_1_l in F.
  change (eqb N r (lit N 0 0)) with (Beqb r (blit prec emax Hp He 0 0)). rewrite (Beqb_correct _ _ r _ R1 Z1), Z0. destruct (Req_bool_spec (B2R r) (IZR 0)) as [Q|Q].
  { split; [exact Fz|]. exists (redx P S' (B2R x)). split; [|split; assumption]. rewrite F, Q. exact HE. }
  destruct (core_ok r R1 ltac:(lra)) as [K1 K2]. split; [exact K1|]. exists (redx P S' (B2R x)). split; [|split; assumption]. rewrite F. exact K2.
Qed.
End Rd.
End G.
