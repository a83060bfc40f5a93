(** * C10, C43: argument reduction and the Clausen functions in IEEE arithmetic

    Everything here is about the floating-point instances: double ([B64 L]) and
    x87 long double ([B80 L]), over any C library [L] that meets [libm_ok]. *)
From Coq Require Import ZArith Reals Bool Lia Lra Psatz List.
From Coquelicot Require Import Rcomplements.
From Interval Require Import Tactic.
From Flocq Require Import Core Relative IEEE754.BinarySingleNaN.
From Verif Require Import Num Outcome NumR Eval_R NumB NumB_facts Proof_Int Proof_Float Libm Polylog Clausen Clausen_vals Proof_Cl Cl_full Cl_shape Cl_branch Model_Cl16 Model_Cl Ferr FerrB Fmod Ieee Cl_ieee Cl_pieces Cl_core_d Cl_core_l Properties_A.
Import ListNotations.
Local Open Scope R_scope.

(** ** constants *)
Lemma PId_near L : 3 < B2R (PId (B64 L)) < PI /\ Rabs (B2R (PId (B64 L)) - PI) <= 123 / 10 ^ 18.
Proof.
  destruct (pi_val_d L) as [_ E]. rewrite E. change (2 ^ 51)%Z with 2251799813685248%Z. split; [split; [lra|interval with (i_prec 90)]|]. interval with (i_prec 90).
Qed.
Lemma PIl_near L : 3 < B2R (PIl (B80 L)) < 4 /\ Rabs (B2R (PIl (B80 L)) - PI) <= 51 / 10 ^ 21 .
Proof.
  destruct (pi_val_l L) as [_ E]. rewrite E. change (2 ^ 62)%Z with 4611686018427387904%Z. split; [lra|]. interval with (i_prec 120).
Qed.
Lemma dist_near_d L x : distf 53 1024 (PId (B64 L)) (p1d (B64 L)) x <= 4 / 10 ^ 17 * Rabs x + 23 / 10 ^ 17.
Proof.
  unfold distf. destruct (PId_near L) as [A B]. destruct (p1_val_d L) as [_ E]. pose proof (Rabs_pos x) as X.
  assert (S0 : Rabs (2 * PI - (201 / 32 + B2R (p1d (B64 L)))) <= 1 / 10 ^ 18). { rewrite E. change (2 ^ 62)%Z with 4611686018427387904%Z. interval with (i_prec 90). }
  change (1 - 53)%Z with (Zneg 52). rewrite bpow_neg. change (2 ^ 52)%Z with 4503599627370496%Z.
  assert (D : Rabs x / B2R (PId (B64 L)) * Rabs (B2R (PId (B64 L)) - PI) <= 4 / 10 ^ 17 * Rabs x).
  { unfold Rdiv at 1. rewrite Rmult_assoc, (Rmult_comm (Rabs x)). apply Rmult_le_compat_r; [exact X|]. destruct (pi_val_d L) as [_ E']. rewrite E' in *. change (2 ^ 51)%Z with 2251799813685248%Z in *. interval with (i_prec 90). }
  lra.
Qed.
Lemma dist_near_l L x : distf 64 16384 (PIl (B80 L)) (p1l (B80 L)) x <= 17 / 10 ^ 21 * Rabs x + 11 / 10 ^ 20.
Proof.
  unfold distf. destruct (PIl_near L) as [A B]. destruct (p1_val_l L) as [_ E]. pose proof (Rabs_pos x) as X.
  assert (S0 : Rabs (2 * PI - (201 / 32 + B2R (p1l (B80 L)))) <= 1 / 10 ^ 21). { rewrite E. change (2 ^ 73)%Z with 9444732965739290427392%Z. interval with (i_prec 120). }
  change (1 - 64)%Z with (Zneg 63). rewrite bpow_neg. change (2 ^ 63)%Z with 9223372036854775808%Z.
  assert (D : Rabs x / B2R (PIl (B80 L)) * Rabs (B2R (PIl (B80 L)) - PI) <= 17 / 10 ^ 21 * Rabs x).
  { unfold Rdiv at 1. rewrite Rmult_assoc, (Rmult_comm (Rabs x)). apply Rmult_le_compat_r; [exact X|]. destruct (pi_val_l L) as [_ E']. rewrite E' in *. change (2 ^ 62)%Z with 4611686018427387904%Z in *. interval with (i_prec 120). }
  lra.
Qed.


Lemma trig_2pik y k : cos (y + 2 * PI * IZR k) = cos y /\ sin (y + 2 * PI * IZR k) = sin y.
Proof.
  destruct (Z_lt_le_dec k 0) as [K|K].
  - assert (E : IZR k = - INR (Z.to_nat (- k))) by (rewrite INR_IZR_INZ, Z2Nat.id, opp_IZR by lia; ring). rewrite E. set (m := Z.to_nat (- k)).
    rewrite <- (cos_period (y + 2 * PI * - INR m) m), <- (sin_period (y + 2 * PI * - INR m) m). split; f_equal; ring.
  - assert (E : IZR k = INR (Z.to_nat k)) by (rewrite INR_IZR_INZ, Z2Nat.id by lia; reflexivity). rewrite E. set (m := Z.to_nat k).
    rewrite <- (cos_period y m), <- (sin_period y m). split; f_equal; ring.
Qed.
Lemma trig_redx P S' x : cos (redx P S' x) = cos (redc P S' x) /\ sin (redx P S' x) = sg x * (if Rlt_dec P (redb P x) then -1 else 1) * sin (redc P S' x).
Proof.
  unfold redx. set (c := redc P S' x). set (k := redk P (Rabs x)).
  assert (A : forall y, cos (sg x * y) = cos y /\ sin (sg x * y) = sg x * sin y).
  { intros y. unfold sg. destruct (Rlt_dec x 0); [replace (-1 * y) with (- y) by ring; rewrite cos_neg, sin_neg; split; ring|rewrite !Rmult_1_l; split; reflexivity]. }
  destruct (A ((if Rlt_dec P (redb P x) then 2 * PI - c else c) + 2 * PI * IZR k)) as [-> ->].
  destruct (trig_2pik (if Rlt_dec P (redb P x) then 2 * PI - c else c) k) as [-> ->].
  destruct (Rlt_dec P (redb P x)).
  - destruct (trig_2pik (- c) 1) as [B1 B2]. replace (2 * PI - c) with (- c + 2 * PI * 1) by ring. rewrite B1, B2, cos_neg, sin_neg. split; ring.
  - split; ring.
Qed.
Lemma redu_trig L x : is_finite x = true ->
  let r := redu (B64 L) (PId (B64 L)) (p1d (B64 L)) x in let s := rsgn (B64 L) (PId (B64 L)) x in
  is_finite r = true /\ 0 <= B2R r <= B2R (PId (B64 L)) /\ (B2R s = 1 \/ B2R s = -1) /\
  exists x', Rabs (x' - B2R x) <= 4 / 10 ^ 17 * Rabs (B2R x) + 23 / 10 ^ 17 /\ (Rabs (B2R x) <= 3 -> x' = B2R x) /\ cos x' = cos (B2R r) /\ sin x' = B2R s * sin (B2R r).
Proof.
  intros Fx. cbv zeta. destruct (redu_ok 53 1024 Hp53 He53 ltac:(lia) ltac:(lia) L (PId (B64 L)) (p1d (B64 L)) (consts_d L) x Fx) as (S' & S1 & R1 & R2 & R3 & G1 & G2).
  change (NumB 53 1024 Hp53 He53 L) with (B64 L) in *. split; [exact R1|]. split; [exact R2|]. split.
  { rewrite G2. unfold sg. destruct (Rlt_dec (B2R x) 0), (Rlt_dec _ (redb _ (B2R x))); lra. }
  destruct (PId_near L) as [PB _].
  exists (redx (B2R (PId (B64 L))) S' (B2R x)). split; [|split; [|]].
  - eapply Rle_trans; [apply (redx_distf 53 1024 Hp53 He53 L (PId (B64 L)) (p1d (B64 L)) (consts_d L) S' (B2R x) S1)|apply dist_near_d].
  - intros H. pose proof PI_4. apply redx_small; [split|]; lra.
  - destruct (trig_redx (B2R (PId (B64 L))) S' (B2R x)) as [T1 T2]. rewrite T1, T2, R3, G2. split; reflexivity.
Qed.
Lemma flip64 L x : range_reduce_flip (B64 L) x = (rsgn (B64 L) (PId (B64 L)) x, redu (B64 L) (PId (B64 L)) (p1d (B64 L)) x).
Proof. exact (flip_redu (B64 L) x). Qed.
Lemma noflip64 L x : range_reduce_noflip (B64 L) x = redu (B64 L) (PId (B64 L)) (p1d (B64 L)) x.
Proof. exact (noflip_redu (B64 L) x). Qed.
Lemma one64 L : B2R (lit (B64 L) 1 0) = 1.
Proof. change (lit (B64 L) 1 0) with (blit 53 1024 Hp53 He53 1 0). destruct (litZ_exact 53 1024 Hp53 He53 ltac:(lia) 1) as [A _]; [cbn; lia|exact A]. Qed.

(** ** C10 *)
(** Argument reduction of [Cl(n,x)] and [Sl(n,x)], every order [n], every finite double angle:
    the reduced angle [r] is a finite double in [0, pi] and the sign [s] is exactly 1 or -1.
    They are right for an angle [x'] within 4e-17 |x| + 2.3e-16 of x (and for x itself when
    |x| <= 3): cos x' = cos r, and where the sign matters (even orders of Cl, odd orders of
    Sl) sin x' = s sin r. *)
Definition good_reduction (with_sign : bool) (x s r : binary_float 53 1024) : Prop :=
  is_finite r = true /\ 0 <= B2R r <= PI /\ (B2R s = 1 \/ B2R s = -1) /\ (with_sign = false -> B2R s = 1) /\
  exists x', Rabs (x' - B2R x) <= 4 / 10 ^ 17 * Rabs (B2R x) + 23 / 10 ^ 17 /\ (Rabs (B2R x) <= 3 -> x' = B2R x) /\
    cos x' = cos (B2R r) /\ (with_sign = true -> sin x' = B2R s * sin (B2R r)).
Lemma good_flip L x : is_finite x = true -> good_reduction true x (fst (range_reduce_flip (B64 L) x)) (snd (range_reduce_flip (B64 L) x)).
Proof.
  intros Fx. rewrite flip64. cbn [fst snd]. destruct (redu_trig L x Fx) as (A & B & C & x' & D & E & F & G). destruct (PId_near L) as [PB _].
  split; [exact A|]. split; [lra|]. split; [exact C|]. split; [discriminate|]. exists x'. repeat split; auto.
Qed.
Lemma good_noflip L x : is_finite x = true -> good_reduction false x (lit (B64 L) 1 0) (range_reduce_noflip (B64 L) x).
Proof.
  intros Fx. rewrite noflip64. destruct (redu_trig L x Fx) as (A & B & C & x' & D & E & F & G). destruct (PId_near L) as [PB _].
  split; [exact A|]. split; [lra|]. split; [left; apply one64|]. split; [intros _; apply one64|]. exists x'. repeat split; auto. discriminate.
Qed.
Theorem C10_reduced_angle_Cl L n x : is_finite x = true ->
  good_reduction (Z.even n) x (fst (Cl_range_reduce (B64 L) n x)) (snd (Cl_range_reduce (B64 L) n x)).
Proof.
  intros Fx. unfold Cl_range_reduce. replace (is_even n) with (Z.even n) by (symmetry; apply even_Zeven). destruct (Z.even n).
  - exact (good_flip L x Fx).
  - exact (good_noflip L x Fx).
Qed.
Theorem C10_reduced_angle_Sl L n x : is_finite x = true ->
  good_reduction (Z.odd n) x (fst (Sl_range_reduce (B64 L) n x)) (snd (Sl_range_reduce (B64 L) n x)).
Proof.
  intros Fx. unfold Sl_range_reduce. replace (is_even n) with (Z.even n) by (symmetry; apply even_Zeven). rewrite <- Z.negb_even. destruct (Z.even n); cbn [negb].
  - exact (good_noflip L x Fx).
  - exact (good_flip L x Fx).
Qed.

Lemma z3d_lit L : is_finite (lit (B64 L) 12020569031595943 (-16)) = true /\ Rabs (B2R (lit (B64 L) 12020569031595943 (-16)) - Clspec 3 0) <= e3d.
Proof.
  destruct em_d as (E1 & E2 & E3 & E4).
  assert (C : check 53 (lit NumE 12020569031595943 (-16)) [[]] (4 * 2 ^ 87) = true) by (vm_compute; reflexivity).
  destruct (const_check 53 1024 Hp53 He53 E3 E1 E2 L (lit NumE 12020569031595943 (-16)) (4 * 2 ^ 87) 0 Z3d C) as [F G].
  - change (evalN (NumR 0) (fun _ : nat => Some 0) (lit NumE 12020569031595943 (-16))) with (Some (litR 12020569031595943 (-16))). rewrite lit_Z3d. reflexivity.
  - change (evalN (NumB 53 1024 Hp53 He53 L) (fun _ : nat => B754_zero false) (lit NumE 12020569031595943 (-16))) with (lit (B64 L) 12020569031595943 (-16)) in F, G. split; [exact F|]. rewrite Clspec_0 by (reflexivity || lia).
    assert (S : IZR (4 * 2 ^ 87) / sc = 4 / 2 ^ 53) by (unfold sc; change (4 * 2 ^ 87)%Z with 618970019642690137449562112%Z; change SH with 1393796574908163946345982392040522594123776%Z; lra). rewrite S in G.
    apply (tri_le _ Z3d _ _ _ _ G Z3d_err). unfold e3d. lra.
Qed.
Lemma z5d_lit L : is_finite (lit (B64 L) 10369277551433699 (-16)) = true /\ Rabs (B2R (lit (B64 L) 10369277551433699 (-16)) - Clspec 5 0) <= e5d.
Proof.
  destruct em_d as (E1 & E2 & E3 & E4).
  assert (C : check 53 (lit NumE 10369277551433699 (-16)) [[]] (4 * 2 ^ 87) = true) by (vm_compute; reflexivity).
  destruct (const_check 53 1024 Hp53 He53 E3 E1 E2 L (lit NumE 10369277551433699 (-16)) (4 * 2 ^ 87) 0 Z5d C) as [F G].
  - change (evalN (NumR 0) (fun _ : nat => Some 0) (lit NumE 10369277551433699 (-16))) with (Some (litR 10369277551433699 (-16))). rewrite lit_Z5d. reflexivity.
  - change (evalN (NumB 53 1024 Hp53 He53 L) (fun _ : nat => B754_zero false) (lit NumE 10369277551433699 (-16))) with (lit (B64 L) 10369277551433699 (-16)) in F, G. split; [exact F|]. rewrite Clspec_0 by (reflexivity || lia).
    assert (S : IZR (4 * 2 ^ 87) / sc = 4 / 2 ^ 53) by (unfold sc; change (4 * 2 ^ 87)%Z with 618970019642690137449562112%Z; change SH with 1393796574908163946345982392040522594123776%Z; lra). rewrite S in G.
    apply (tri_le _ Z5d _ _ _ _ G Z5d_err). unfold e5d. lra.
Qed.
Lemma z3l_lit L : is_finite (lit (B80 L) 12020569031595942853997381615114499908 (-37)) = true /\ Rabs (B2R (lit (B80 L) 12020569031595942853997381615114499908 (-37)) - Clspec 3 0) <= e3l.
Proof.
  destruct em_l as (E1 & E2 & E3 & E4).
  assert (C : check 64 (lit NumE 12020569031595942853997381615114499908 (-37)) [[]] (4 * 2 ^ 76) = true) by (vm_compute; reflexivity).
  destruct (const_check 64 16384 Hp64 He64 E3 E1 E2 L (lit NumE 12020569031595942853997381615114499908 (-37)) (4 * 2 ^ 76) 0 Z3l C) as [F G].
  - change (evalN (NumR 0) (fun _ : nat => Some 0) (lit NumE 12020569031595942853997381615114499908 (-37))) with (Some (litR 12020569031595942853997381615114499908 (-37))). rewrite lit_Z3l. reflexivity.
  - change (evalN (NumB 64 16384 Hp64 He64 L) (fun _ : nat => B754_zero false) (lit NumE 12020569031595942853997381615114499908 (-37))) with (lit (B80 L) 12020569031595942853997381615114499908 (-37)) in F, G. split; [exact F|]. rewrite Clspec_0 by (reflexivity || lia).
    assert (S : IZR (4 * 2 ^ 76) / sc = 4 / 2 ^ 64) by (unfold sc; change (4 * 2 ^ 76)%Z with 302231454903657293676544%Z; change SH with 1393796574908163946345982392040522594123776%Z; lra). rewrite S in G.
    apply (tri_le _ Z3l _ _ _ _ G Z3l_err). unfold e3l. lra.
Qed.
Lemma z5l_lit L : is_finite (lit (B80 L) 1036927755143369926331365486457034168057 (-39)) = true /\ Rabs (B2R (lit (B80 L) 1036927755143369926331365486457034168057 (-39)) - Clspec 5 0) <= e5l.
Proof.
  destruct em_l as (E1 & E2 & E3 & E4).
  assert (C : check 64 (lit NumE 1036927755143369926331365486457034168057 (-39)) [[]] (4 * 2 ^ 76) = true) by (vm_compute; reflexivity).
  destruct (const_check 64 16384 Hp64 He64 E3 E1 E2 L (lit NumE 1036927755143369926331365486457034168057 (-39)) (4 * 2 ^ 76) 0 Z5l C) as [F G].
  - change (evalN (NumR 0) (fun _ : nat => Some 0) (lit NumE 1036927755143369926331365486457034168057 (-39))) with (Some (litR 1036927755143369926331365486457034168057 (-39))). rewrite lit_Z5l. reflexivity.
  - change (evalN (NumB 64 16384 Hp64 He64 L) (fun _ : nat => B754_zero false) (lit NumE 1036927755143369926331365486457034168057 (-39))) with (lit (B80 L) 1036927755143369926331365486457034168057 (-39)) in F, G. split; [exact F|]. rewrite Clspec_0 by (reflexivity || lia).
    assert (S : IZR (4 * 2 ^ 76) / sc = 4 / 2 ^ 64) by (unfold sc; change (4 * 2 ^ 76)%Z with 302231454903657293676544%Z; change SH with 1393796574908163946345982392040522594123776%Z; lra). rewrite S in G.
    apply (tri_le _ Z5l _ _ _ _ G Z5l_err). unfold e5l. lra.
Qed.

(** ** C43, and the rest of C10: Cl2 .. Cl6 are finite and accurate for every finite angle *)
(** [accurate n k d1 d0 v x]: the float [v] is finite and within [k] units of 2^-prec of the
    exact Clausen function of order [n] at an angle [x'] within [d1 |x| + d0] of x, and at x
    itself when |x| <= 3. *)
Definition accurate {prec emax} (n : nat) (eps d1 d0 : R) (v x : binary_float prec emax) : Prop :=
  is_finite v = true /\ exists x', Rabs (B2R v - Clspec n x') <= eps /\ Rabs (x' - B2R x) <= d1 * Rabs (B2R x) + d0 /\ (Rabs (B2R x) <= 3 -> x' = B2R x).
Theorem C43_Cl2_double L x : libm_ok (Hp := Hp53) (He := He53) L -> is_finite x = true ->
  accurate 2 (42 / 2 ^ 53) (4 / 10 ^ 17) (23 / 10 ^ 17) (Cl2_d (B64 L) x) x.
Proof.
  intros HL Fx. destruct (PId_near L) as [PB PE]. rewrite Cl2_d_shape.
  destruct (even_ieee 53 1024 Hp53 He53 ltac:(lia) ltac:(lia) L (PId (B64 L)) (p1d (B64 L)) (consts_d L) 2 e2d (Cl2_d_core (B64 L)) (core2d_ieee L HL) x eq_refl) as [A (x' & B & C & D)]; [|exact Fx|].
  { eapply Rle_trans; [apply (Clspec_at_P 2 _ _ eq_refl ltac:(lia) PE); lra|unfold e2d; lra]. }
  split; [exact A|]. exists x'. split; [eapply Rle_trans; [exact B|unfold e2d; lra]|]. split; [eapply Rle_trans; [exact C|apply dist_near_d]|]. intros H. apply D. eapply Rle_trans; [exact H|left; exact (proj1 PB)].
Qed.
Theorem C43_Cl3_double L x : libm_ok (Hp := Hp53) (He := He53) L -> is_finite x = true ->
  accurate 3 (26 / 2 ^ 53) (4 / 10 ^ 17) (23 / 10 ^ 17) (Cl3_d (B64 L) x) x.
Proof.
  intros HL Fx. destruct (PId_near L) as [PB PE]. rewrite Cl3_d_shape.
  match goal with |- accurate _ _ _ _ (cl_odd _ _ _ ?z _ _) _ => destruct (odd_ieee 53 1024 Hp53 He53 ltac:(lia) ltac:(lia) L (PId (B64 L)) (p1d (B64 L)) (consts_d L) 3 e3d (Cl3_d_core (B64 L)) (core3d_ieee L HL) x z eq_refl) as [A (x' & B & C & D)]; [exact (proj1 (z3d_lit L))|exact (proj2 (z3d_lit L))|exact Fx|] end.
  split; [exact A|]. exists x'. split; [eapply Rle_trans; [exact B|unfold e3d; lra]|]. split; [eapply Rle_trans; [exact C|apply dist_near_d]|]. intros H. apply D. eapply Rle_trans; [exact H|left; exact (proj1 PB)].
Qed.
Theorem C43_Cl4_double L x : libm_ok (Hp := Hp53) (He := He53) L -> is_finite x = true ->
  accurate 4 (39 / 2 ^ 53) (4 / 10 ^ 17) (23 / 10 ^ 17) (Cl4_d (B64 L) x) x.
Proof.
  intros HL Fx. destruct (PId_near L) as [PB PE]. rewrite Cl4_d_shape.
  destruct (even_ieee 53 1024 Hp53 He53 ltac:(lia) ltac:(lia) L (PId (B64 L)) (p1d (B64 L)) (consts_d L) 4 e4d (Cl4_d_core (B64 L)) (core4d_ieee L HL) x eq_refl) as [A (x' & B & C & D)]; [|exact Fx|].
  { eapply Rle_trans; [apply (Clspec_at_P 4 _ _ eq_refl ltac:(lia) PE); lra|unfold e4d; lra]. }
  split; [exact A|]. exists x'. split; [eapply Rle_trans; [exact B|unfold e4d; lra]|]. split; [eapply Rle_trans; [exact C|apply dist_near_d]|]. intros H. apply D. eapply Rle_trans; [exact H|left; exact (proj1 PB)].
Qed.
Theorem C43_Cl5_double L x : libm_ok (Hp := Hp53) (He := He53) L -> is_finite x = true ->
  accurate 5 (23 / 2 ^ 53) (4 / 10 ^ 17) (23 / 10 ^ 17) (Cl5_d (B64 L) x) x.
Proof.
  intros HL Fx. destruct (PId_near L) as [PB PE]. rewrite Cl5_d_shape.
  match goal with |- accurate _ _ _ _ (cl_odd _ _ _ ?z _ _) _ => destruct (odd_ieee 53 1024 Hp53 He53 ltac:(lia) ltac:(lia) L (PId (B64 L)) (p1d (B64 L)) (consts_d L) 5 e5d (Cl5_d_core (B64 L)) (core5d_ieee L HL) x z eq_refl) as [A (x' & B & C & D)]; [exact (proj1 (z5d_lit L))|exact (proj2 (z5d_lit L))|exact Fx|] end.
  split; [exact A|]. exists x'. split; [eapply Rle_trans; [exact B|unfold e5d; lra]|]. split; [eapply Rle_trans; [exact C|apply dist_near_d]|]. intros H. apply D. eapply Rle_trans; [exact H|left; exact (proj1 PB)].
Qed.
Theorem C43_Cl6_double L x : libm_ok (Hp := Hp53) (He := He53) L -> is_finite x = true ->
  accurate 6 (33 / 2 ^ 53) (4 / 10 ^ 17) (23 / 10 ^ 17) (Cl6_d (B64 L) x) x.
Proof.
  intros HL Fx. destruct (PId_near L) as [PB PE]. rewrite Cl6_d_shape.
  destruct (even_ieee 53 1024 Hp53 He53 ltac:(lia) ltac:(lia) L (PId (B64 L)) (p1d (B64 L)) (consts_d L) 6 e6d (Cl6_d_core (B64 L)) (core6d_ieee L HL) x eq_refl) as [A (x' & B & C & D)]; [|exact Fx|].
  { eapply Rle_trans; [apply (Clspec_at_P 6 _ _ eq_refl ltac:(lia) PE); lra|unfold e6d; lra]. }
  split; [exact A|]. exists x'. split; [eapply Rle_trans; [exact B|unfold e6d; lra]|]. split; [eapply Rle_trans; [exact C|apply dist_near_d]|]. intros H. apply D. eapply Rle_trans; [exact H|left; exact (proj1 PB)].
Qed.
Theorem C43_Cl2_long_double L x : libm_ok (Hp := Hp64) (He := He64) L -> is_finite x = true ->
  accurate 2 (193 / 2 ^ 64) (17 / 10 ^ 21) (11 / 10 ^ 20) (Cl2_l (B80 L) x) x.
Proof.
  intros HL Fx. destruct (PIl_near L) as [PB PE]. rewrite Cl2_l_shape.
  destruct (even_ieee 64 16384 Hp64 He64 ltac:(lia) ltac:(lia) L (PIl (B80 L)) (p1l (B80 L)) (consts_l L) 2 e2l (Cl2_l_core (B80 L)) (core2l_ieee L HL) x eq_refl) as [A (x' & B & C & D)]; [|exact Fx|].
  { eapply Rle_trans; [apply (Clspec_at_P 2 _ _ eq_refl ltac:(lia) PE); lra|unfold e2l; lra]. }
  split; [exact A|]. exists x'. split; [eapply Rle_trans; [exact B|unfold e2l; lra]|]. split; [eapply Rle_trans; [exact C|apply dist_near_l]|]. intros H. apply D. eapply Rle_trans; [exact H|left; exact (proj1 PB)].
Qed.
Theorem C43_Cl3_long_double L x : libm_ok (Hp := Hp64) (He := He64) L -> is_finite x = true ->
  accurate 3 (12002 / 2 ^ 64) (17 / 10 ^ 21) (11 / 10 ^ 20) (Cl3_l (B80 L) x) x.
Proof.
  intros HL Fx. destruct (PIl_near L) as [PB PE]. rewrite Cl3_l_shape.
  match goal with |- accurate _ _ _ _ (cl_odd _ _ _ ?z _ _) _ => destruct (odd_ieee 64 16384 Hp64 He64 ltac:(lia) ltac:(lia) L (PIl (B80 L)) (p1l (B80 L)) (consts_l L) 3 e3l (Cl3_l_core (B80 L)) (core3l_ieee L HL) x z eq_refl) as [A (x' & B & C & D)]; [exact (proj1 (z3l_lit L))|exact (proj2 (z3l_lit L))|exact Fx|] end.
  split; [exact A|]. exists x'. split; [eapply Rle_trans; [exact B|unfold e3l; lra]|]. split; [eapply Rle_trans; [exact C|apply dist_near_l]|]. intros H. apply D. eapply Rle_trans; [exact H|left; exact (proj1 PB)].
Qed.
Theorem C43_Cl4_long_double L x : libm_ok (Hp := Hp64) (He := He64) L -> is_finite x = true ->
  accurate 4 (3602 / 2 ^ 64) (17 / 10 ^ 21) (11 / 10 ^ 20) (Cl4_l (B80 L) x) x.
Proof.
  intros HL Fx. destruct (PIl_near L) as [PB PE]. rewrite Cl4_l_shape.
  destruct (even_ieee 64 16384 Hp64 He64 ltac:(lia) ltac:(lia) L (PIl (B80 L)) (p1l (B80 L)) (consts_l L) 4 e4l (Cl4_l_core (B80 L)) (core4l_ieee L HL) x eq_refl) as [A (x' & B & C & D)]; [|exact Fx|].
  { eapply Rle_trans; [apply (Clspec_at_P 4 _ _ eq_refl ltac:(lia) PE); lra|unfold e4l; lra]. }
  split; [exact A|]. exists x'. split; [eapply Rle_trans; [exact B|unfold e4l; lra]|]. split; [eapply Rle_trans; [exact C|apply dist_near_l]|]. intros H. apply D. eapply Rle_trans; [exact H|left; exact (proj1 PB)].
Qed.
Theorem C43_Cl5_long_double L x : libm_ok (Hp := Hp64) (He := He64) L -> is_finite x = true ->
  accurate 5 (16002 / 2 ^ 64) (17 / 10 ^ 21) (11 / 10 ^ 20) (Cl5_l (B80 L) x) x.
Proof.
  intros HL Fx. destruct (PIl_near L) as [PB PE]. rewrite Cl5_l_shape.
  match goal with |- accurate _ _ _ _ (cl_odd _ _ _ ?z _ _) _ => destruct (odd_ieee 64 16384 Hp64 He64 ltac:(lia) ltac:(lia) L (PIl (B80 L)) (p1l (B80 L)) (consts_l L) 5 e5l (Cl5_l_core (B80 L)) (core5l_ieee L HL) x z eq_refl) as [A (x' & B & C & D)]; [exact (proj1 (z5l_lit L))|exact (proj2 (z5l_lit L))|exact Fx|] end.
  split; [exact A|]. exists x'. split; [eapply Rle_trans; [exact B|unfold e5l; lra]|]. split; [eapply Rle_trans; [exact C|apply dist_near_l]|]. intros H. apply D. eapply Rle_trans; [exact H|left; exact (proj1 PB)].
Qed.
Theorem C43_Cl6_long_double L x : libm_ok (Hp := Hp64) (He := He64) L -> is_finite x = true ->
  accurate 6 (71002 / 2 ^ 64) (17 / 10 ^ 21) (11 / 10 ^ 20) (Cl6_l (B80 L) x) x.
Proof.
  intros HL Fx. destruct (PIl_near L) as [PB PE]. rewrite Cl6_l_shape.
  destruct (even_ieee 64 16384 Hp64 He64 ltac:(lia) ltac:(lia) L (PIl (B80 L)) (p1l (B80 L)) (consts_l L) 6 e6l (Cl6_l_core (B80 L)) (core6l_ieee L HL) x eq_refl) as [A (x' & B & C & D)]; [|exact Fx|].
  { eapply Rle_trans; [apply (Clspec_at_P 6 _ _ eq_refl ltac:(lia) PE); lra|unfold e6l; lra]. }
  split; [exact A|]. exists x'. split; [eapply Rle_trans; [exact B|unfold e6l; lra]|]. split; [eapply Rle_trans; [exact C|apply dist_near_l]|]. intros H. apply D. eapply Rle_trans; [exact H|left; exact (proj1 PB)].
Qed.

(** ** Cl1 *)
Lemma ln_rel t w d : 0 < w -> 0 <= d <= / 4 -> Rabs (t - w) <= d * w -> 0 < t /\ Rabs (ln t - ln w) <= 4 / 3 * d.
Proof.
  intros Hw Hd H. apply Rabs_le_between in H. assert (Ht : 0 < t) by nra. split; [exact Ht|].
  assert (A : forall a b, 0 < a -> 0 < b -> ln a - ln b <= (a - b) / b).
  { intros a b Ha Hb. rewrite <- ln_div by assumption. assert (E : ln (a / b) <= a / b - 1).
    { replace (a / b) with (1 + (a / b - 1)) at 1 by ring. assert (0 < a / b) by (apply Rdiv_lt_0_compat; assumption).
      assert (X := exp_ineq1_le (a / b - 1)). rewrite <- (ln_exp (a / b - 1)) at 2. destruct (Rle_lt_or_eq_dec _ _ X) as [Y|Y]; [left; apply ln_increasing; lra|right; rewrite Y; reflexivity]. }
    replace ((a - b) / b) with (a / b - 1) by (field; lra). exact E. }
  apply Rabs_le. pose proof (A t w Ht Hw) as U. pose proof (A w t Hw Ht) as V. split.
  - enough ((w - t) / t <= 4 / 3 * d) by lra. apply (Rmult_le_reg_r t); [exact Ht|]. unfold Rdiv at 1. rewrite Rmult_assoc, Rinv_l by lra. nra.
  - enough ((t - w) / w <= d) by lra. apply (Rmult_le_reg_r w); [exact Hw|]. unfold Rdiv. rewrite Rmult_assoc, Rinv_l by lra. lra.
Qed.
Lemma sin_ge h : 0 <= h <= 8 / 5 -> h * (11 / 20) <= sin h <= h.
Proof.
  intros H. split.
  - pose proof PI2_3_2 as P2. destruct (sin_bound h 0 ltac:(lra) ltac:(unfold PI2 in P2; lra)) as [B _].
    unfold sin_approx, sin_term in B. cbn [sum_f_R0 Nat.mul Nat.add pow] in B. replace (INR (fact 1)) with 1 in B by (cbn; ring).
    replace (INR (fact 3)) with 6 in B by (cbn; ring). assert (Q : h * h <= 64 / 25) by nra. assert (Q2 : h * (h * h) <= h * (64 / 25)) by (apply Rmult_le_compat_l; lra). replace (h * (h * (h * 1))) with (h * (h * h)) in B by ring. lra.
  - destruct (Req_dec h 0) as [->|]; [rewrite sin_0; lra|]. left. apply sin_lt_x. lra.
Qed.

Definition cl1c (N : num) (x : N) : N := opp N (nlog N (mul N (lit N 2 0) (nsin N (mul N (lit N 5 (-1)) x)))).
Lemma half64 L : is_finite (lit (B64 L) 5 (-1)) = true /\ B2R (lit (B64 L) 5 (-1)) = / 2.
Proof.
  assert (E : B2SF (blit 53 1024 Hp53 He53 5 (-1)) = SpecFloat.S754_finite false 4503599627370496 (-53)) by (vm_compute; reflexivity).
  change (lit (B64 L) 5 (-1)) with (blit 53 1024 Hp53 He53 5 (-1)). split; [rewrite <- is_finite_SF_B2SF, E; reflexivity|]. rewrite <- SF2R_B2SF, E. cbn [SF2R cond_Zopp]. unfold F2R. cbn [Fnum Fexp].
  rewrite bpow_neg. change (2 ^ 53)%Z with 9007199254740992%Z. lra.
Qed.
Lemma two64 L : is_finite (lit (B64 L) 2 0) = true /\ B2R (lit (B64 L) 2 0) = 2.
Proof. destruct (litZ_exact 53 1024 Hp53 He53 ltac:(lia) 2) as [A B]; [cbn; lia|]. split; assumption. Qed.
Lemma halve L x : is_finite x = true -> 0 <= B2R x <= 4 -> is_finite (mul (B64 L) (lit (B64 L) 5 (-1)) x) = true /\
  0 <= B2R (mul (B64 L) (lit (B64 L) 5 (-1)) x) /\ Rabs (B2R (mul (B64 L) (lit (B64 L) 5 (-1)) x) - B2R x / 2) <= u64 * (B2R x / 2) + s64 /\
  (bpow radix2 (-1000) <= B2R x -> Rabs (B2R (mul (B64 L) (lit (B64 L) 5 (-1)) x) - B2R x / 2) <= u64 * (B2R x / 2)).
Proof.
  intros Fx Hx. destruct (half64 L) as [HF HV]. pose proof big64_ge as BG.
  destruct (mul_okf L _ x HF Fx) as [A B]. { rewrite HV. assert (4 <= 2 ^ 200) by (apply Rle_trans with (2 ^ 2); [lra|apply Rle_pow; [lra|lia]]). rewrite Rabs_pos_eq; lra. }
  rewrite HV in B. split; [exact A|]. replace (/ 2 * B2R x) with (B2R x / 2) in B by field. rewrite B. split; [|split].
  - apply round_ge_generic; [apply (fexp_correct 53 1024 Hp53)|apply valid_rnd_N|apply generic_format_0|lra].
  - eapply Rle_trans; [apply rnd64_err|]. rewrite (Rabs_pos_eq (B2R x / 2)) by lra. lra.
  - intros H. eapply Rle_trans; [apply rnd64_err_norm|rewrite (Rabs_pos_eq (B2R x / 2)) by lra; lra]. rewrite Rabs_pos_eq by lra.
    apply Rle_trans with (bpow radix2 (-1000) / 2); [|lra]. apply Rle_trans with (bpow radix2 (-1001)); [apply bpow_le; lia|]. change (-1000)%Z with (-1001 + 1)%Z. rewrite bpow_plus. change (bpow radix2 1) with 2. lra.
Qed.
Lemma MVT_sin p q : Rabs (sin p - sin q) <= Rabs (p - q).
Proof.
  rewrite form4. assert (A : forall y, Rabs (sin y) <= Rabs y).
  { intros y. destruct (Rtotal_order y 0) as [H|[->|H]]; [|rewrite sin_0; lra|].
    - rewrite <- (Rabs_Ropp (sin y)), <- (Rabs_Ropp y), <- sin_neg. pose proof (sin_lt_x (- y) ltac:(lra)). rewrite (Rabs_pos_eq (- y)) by lra. destruct (Rle_lt_dec (- y) 1) as [B|B]; [rewrite Rabs_pos_eq by (pose proof (sin_ge (- y)); lra); lra|]. pose proof (SIN_bound (- y)). apply Rabs_le. lra.
    - pose proof (sin_lt_x y ltac:(lra)). rewrite (Rabs_pos_eq y) by lra. destruct (Rle_lt_dec y 1) as [B|B]; [rewrite Rabs_pos_eq by (pose proof (sin_ge y); lra); lra|]. pose proof (SIN_bound y). apply Rabs_le. lra. }
  rewrite !Rabs_mult, (Rabs_pos_eq 2) by lra. pose proof (A ((p - q) / 2)) as B. pose proof (COS_bound ((p + q) / 2)) as C. assert (C' : Rabs (cos ((p + q) / 2)) <= 1) by (apply Rabs_le; lra).
  replace (Rabs (p - q)) with (2 * Rabs ((p - q) / 2)) by (unfold Rdiv; rewrite Rabs_mult, (Rabs_pos_eq (/ 2)) by lra; lra).
  pose proof (Rabs_pos (sin ((p - q) / 2))). pose proof (Rabs_pos (cos ((p + q) / 2))). nra.
Qed.
Lemma gf_min64 (x : binary_float 53 1024) : is_finite x = true -> B2R x < 0 -> B2R x <= - bpow radix2 (-1074).
Proof.
  intros Fx H. destruct x as [s| | |s m e Hb]; try discriminate; cbn [B2R] in *; [lra|].
  destruct s; [|exfalso; pose proof (F2R_gt_0 radix2 (Float radix2 (cond_Zopp false (Zpos m)) e) ltac:(cbn; lia)); lra].
  assert (He : (-1074 <= e)%Z). { clear -Hb. unfold SpecFloat.bounded in Hb. apply andb_prop in Hb. destruct Hb as [Hb _]. unfold SpecFloat.canonical_mantissa in Hb. apply Zeq_bool_eq in Hb. unfold SpecFloat.fexp, SpecFloat.emin in Hb. lia. }
  unfold F2R. cbn [Fnum Fexp cond_Zopp]. change (Z.neg m) with (- Z.pos m)%Z. rewrite opp_IZR.
  assert (1 <= IZR (Z.pos m)) by (apply IZR_le; lia). pose proof (bpow_le radix2 _ _ He). pose proof (bpow_gt_0 radix2 e). nra.
Qed.
Lemma cl1_core L x : libm_ok (Hp := Hp53) (He := He53) L -> is_finite x = true -> 0 < B2R x <= B2R (PId (B64 L)) ->
  (cl1c (B64 L) x = B754_infinity false \/ is_finite (cl1c (B64 L) x) = true) /\
  (bpow radix2 (-1000) <= B2R x -> is_finite (cl1c (B64 L) x) = true /\ Rabs (B2R (cl1c (B64 L) x) - - ln (2 * sin (B2R x / 2))) <= / 2 ^ 51 * Rabs (ln (2 * sin (B2R x / 2))) + 15 / 2 ^ 53).
Proof.
  intros HL Fx Hx. destruct (PId_near L) as [[_ PB] _]. pose proof PI_4 as P4. assert (P5 : PI <= 16 / 5) by interval.
  destruct (halve L x Fx ltac:(lra)) as (HF & H0 & H1 & H2). unfold cl1c. set (h := mul (B64 L) (lit (B64 L) 5 (-1)) x) in *.
  destruct (sin_acc _ _ _ _ L HL h HF) as [SF SE]. change (m_sin _ _ L h) with (nsin (B64 L) h) in SF, SE.
  set (s := nsin (B64 L) h) in *. pose proof u64_val as UV. pose proof s64_small as SS.
  assert (ET : bpow radix2 (3 - 1024 - 53) = 2 * s64) by (unfold s64; change (3 - 1024 - 53)%Z with (1 + -1075)%Z; rewrite bpow_plus; reflexivity).
  assert (EU : bpow radix2 (2 - 53) = 4 * u64) by (unfold u64; change (2 - 53)%Z with (2 + -53)%Z; rewrite bpow_plus; reflexivity). rewrite ET, EU in SE.
  assert (U1 : 0 < u64 <= / 2 ^ 53) by (split; [apply bpow_gt_0|lra]). assert (U3 : / 2 ^ 53 <= / 10 ^ 15) by lra.
  assert (HH : 0 <= B2R h <= 8 / 5). { split; [exact H0|]. apply Rabs_le_between in H1. assert (s64 <= / 10 ^ 15). { eapply Rle_trans; [apply SS|]. apply Rle_trans with (/ 2 ^ 53); [|lra]. apply Rinv_le; [apply pow_lt; lra|apply Rle_pow; [lra|lia]]. }
    interval_intro PI lower. destruct (pi_val_d L) as [_ PV]. rewrite PV in Hx. change (2 ^ 51)%Z with 2251799813685248%Z in Hx. nra. }
  pose proof (sin_ge _ HH) as SG. rewrite (Rabs_pos_eq (sin (B2R h))) in SE by nra. destruct (two64 L) as [TF TV]. pose proof big64_ge as BG.
  assert (G4 : 8 <= 2 ^ 200) by (apply Rle_trans with (2 ^ 3); [lra|apply Rle_pow; [lra|lia]]).
  assert (SB : Rabs (B2R s) <= 2). { apply Rabs_le_between in SE. assert (0 < s64 <= / 10) by (split; [apply SS|eapply Rle_trans; [apply SS|]; apply Rinv_le; lra]). apply Rabs_le. nra. }
  destruct (mul_okf L _ s TF SF) as [MF MV]. { rewrite TV, Rabs_mult, (Rabs_pos_eq 2) by lra. lra. } rewrite TV in MV.
  set (t := mul (B64 L) (lit (B64 L) 2 0) s) in *.
  split.
  - destruct (Rtotal_order (B2R s) 0) as [Q|[Q|Q]].
    + exfalso. pose proof (gf_min64 s SF Q) as GM. replace (bpow radix2 (-1074)) with (2 * s64) in GM by (rewrite <- ET; reflexivity).
      apply Rabs_le_between in SE. destruct (Req_dec (B2R h) 0) as [Z|Z]; [|nra].
      assert (exists b, h = B754_zero b) as [b Hb]. { destruct h as [b| | |b m e K]; try discriminate; [exists b; reflexivity|]. exfalso. cbn [B2R] in Z. apply eq_0_F2R in Z. destruct b; discriminate. }
      unfold s in Q. rewrite Hb in Q. change (nsin (B64 L) (B754_zero b)) with (m_sin _ _ L (B754_zero b)) in Q. rewrite (sin_zero _ _ _ _ L HL) in Q. cbn in Q. lra.
    + left. assert (exists b, s = B754_zero b) as [b Hb]. { destruct s as [b| | |b m e K]; try discriminate; [exists b; reflexivity|]. exfalso. cbn [B2R] in Q. apply eq_0_F2R in Q. destruct b; discriminate. }
      rewrite Q, Rmult_0_r, round_0 in MV by apply valid_rnd_N. assert (exists b, t = B754_zero b) as [b' Ht]. { destruct t as [b'| | |b' m e K]; try discriminate; [exists b'; reflexivity|]. exfalso. cbn [B2R] in MV. apply eq_0_F2R in MV. destruct b'; discriminate. }
      rewrite Ht. change (nlog (B64 L) (B754_zero b')) with (m_log _ _ L (B754_zero b')). rewrite (log_zero _ _ _ _ L HL). reflexivity.
    + right. assert (TP : 0 < B2R t). { rewrite MV. apply Rlt_le_trans with (B2R s); [exact Q|]. rewrite <- (round_generic radix2 (SpecFloat.fexp 53 1024) ZnearestE (B2R s)) at 1 by apply generic_format_B2R. apply round_le; [apply (fexp_correct 53 1024 Hp53)|apply valid_rnd_N|lra]. }
      destruct (log_acc _ _ _ _ L HL t MF TP) as [LF _]. change (m_log _ _ L t) with (nlog (B64 L) t) in LF. change (opp (B64 L) (nlog (B64 L) t)) with (Bopp (nlog (B64 L) t)). rewrite is_finite_Bopp. exact LF.
  - intros Hl. specialize (H2 Hl). set (a := B2R x / 2) in *.
    assert (E1000 : s64 <= / 2 ^ 70 * bpow radix2 (-1000)). { unfold s64. replace (/ 2 ^ 70) with (bpow radix2 (-70)) by (rewrite bpow_neg; change (2 ^ 70)%Z with 1180591620717411303424%Z; lra). rewrite <- bpow_plus. apply bpow_le. lia. }
    assert (Ha : 0 < a) by (unfold a; lra). assert (Hs : 2 ^ 70 * s64 <= 2 * a). { unfold a. pose proof (bpow_gt_0 radix2 (-1000)). apply Rle_trans with (bpow radix2 (-1000)); [|lra]. apply (Rmult_le_reg_l (/ 2 ^ 70)); [lra|]. rewrite <- Rmult_assoc, Rinv_l, Rmult_1_l by lra. lra. }
    assert (HA : 0 <= a <= 8 / 5) by (unfold a; lra). pose proof (sin_ge a HA) as SA.
    assert (D1 : Rabs (sin (B2R h) - sin a) <= 2 * u64 * sin a).
    { eapply Rle_trans; [apply (MVT_sin (B2R h) a)|]. eapply Rle_trans; [exact H2|]. nra. }
    assert (D2 : Rabs (B2R s - sin a) <= 7 * u64 * sin a).
    { apply Rabs_le_between in D1. apply (tri_le _ (sin (B2R h)) _ _ (2 * u64 * sin a) _ SE); [apply Rabs_le; lra|]. assert (2 * s64 <= / 2 * u64 * a) by (rewrite UV; lra). nra. }
    apply Rabs_le_between in D2. assert (SP : 0 < sin a) by nra. assert (bn : bpow radix2 (-1022) <= Rabs (2 * B2R s)).
    { apply Rle_trans with a; [|rewrite Rabs_pos_eq; nra]. apply Rle_trans with (bpow radix2 (-1000) / 2); [|unfold a; lra]. apply Rle_trans with (bpow radix2 (-1001)); [apply bpow_le; lia|]. change (-1000)%Z with (-1001 + 1)%Z. rewrite bpow_plus. change (bpow radix2 1) with 2. lra. }
    pose proof (rnd64_err_norm _ bn) as D3. rewrite <- MV in D3. rewrite (Rabs_pos_eq (2 * B2R s)) in D3 by nra. apply Rabs_le_between in D3.
    assert (D4 : Rabs (B2R t - 2 * sin a) <= 9 * u64 * (2 * sin a)) by (apply Rabs_le; nra).
    destruct (ln_rel (B2R t) (2 * sin a) (9 * u64) ltac:(lra) ltac:(lra) D4) as [TP LN].
    destruct (log_acc _ _ _ _ L HL t MF TP) as [LF LE]. change (m_log _ _ L t) with (nlog (B64 L) t) in LF, LE. rewrite ET, EU in LE.
    change (opp (B64 L) (nlog (B64 L) t)) with (Bopp (nlog (B64 L) t)). rewrite is_finite_Bopp, B2R_Bopp. split; [exact LF|].
    replace (- B2R (nlog (B64 L) t) - - ln (2 * sin a)) with (- (B2R (nlog (B64 L) t) - ln (2 * sin a))) by ring. rewrite Rabs_Ropp.
    apply (tri_le _ (ln (B2R t)) _ _ _ _ LE LN). set (l := ln (2 * sin a)) in *. set (l' := ln (B2R t)) in *.
    assert (Rabs l' <= Rabs l + 12 * u64) by (replace l' with ((l' - l) + l) by ring; eapply Rle_trans; [apply Rabs_triang|lra]). pose proof (Rabs_pos l).
    assert (s64 <= u64 / 10) by (rewrite UV; lra). rewrite UV in *. nra.
Qed.
Lemma half_sq y z : cos y = cos z -> Rabs (sin (y / 2)) = Rabs (sin (z / 2)).
Proof.
  intros H. assert (A : forall t, sin (t / 2) * sin (t / 2) = (1 - cos t) / 2) by (intros t; replace t with (2 * (t / 2)) at 3 by field; rewrite cos_2a_sin; field).
  assert (S : Rsqr (sin (y / 2)) = Rsqr (sin (z / 2))) by (unfold Rsqr; rewrite !A, H; reflexivity). apply Rsqr_eq_abs_0. exact S.
Qed.
(** Cl1, every finite double: never NaN, never -infinity; and unless some angle within the
    usual distance of x is within 2^-1000 of a pole (a multiple of 2 pi), the result is finite and
    - ln |2 sin(x'/2)| up to a relative error of 2^-51 plus 15 units of 2^-53. *)
Theorem C43_Cl1_double L x : libm_ok (Hp := Hp53) (He := He53) L -> is_finite x = true ->
  (Cl1_d (B64 L) x = B754_infinity false \/ is_finite (Cl1_d (B64 L) x) = true) /\
  exists x', Rabs (x' - B2R x) <= 4 / 10 ^ 17 * Rabs (B2R x) + 23 / 10 ^ 17 /\ (Rabs (B2R x) <= 3 -> x' = B2R x) /\
    (bpow radix2 (-1000) <= Rabs (sin (x' / 2)) -> is_finite (Cl1_d (B64 L) x) = true /\
       Rabs (B2R (Cl1_d (B64 L) x) - - ln (2 * Rabs (sin (x' / 2)))) <= / 2 ^ 51 * Rabs (ln (2 * Rabs (sin (x' / 2)))) + 15 / 2 ^ 53).
Proof.
  intros HL Fx. rewrite Cl1_shape, cl_odd_red. destruct (redu_trig L x Fx) as (A & B & _ & x' & D & E & F & _). set (r := redu (B64 L) (PId (B64 L)) (p1d (B64 L)) x) in *.
  apply half_sq in F. pose proof (PId_near L) as [[_ PB] _]. assert (P5 : PI <= 16 / 5) by interval.
  destruct (litZ_exact 53 1024 Hp53 He53 ltac:(lia) 0) as [Z0 Z1]; [cbn; lia|].
  change (eqb (B64 L) r (lit (B64 L) 0 0)) with (Beqb r (blit 53 1024 Hp53 He53 0 0)). rewrite (Beqb_correct _ _ r _ A Z1), Z0. destruct (Req_bool_spec (B2R r) (IZR 0)) as [Q|Q].
  - split; [left; reflexivity|]. exists x'. split; [exact D|]. split; [exact E|]. intros H. exfalso. rewrite F, Q in H. replace (0 / 2) with 0 in H by field. rewrite sin_0, Rabs_R0 in H. pose proof (bpow_gt_0 radix2 (-1000)). lra.
  - assert (Hr : 0 < B2R r <= B2R (PId (B64 L))) by lra. destruct (cl1_core L r HL A Hr) as [G1 G2]. unfold cl1c in G1, G2. split; [exact G1|].
    exists x'. split; [exact D|]. split; [exact E|]. intros H. pose proof (sin_ge (B2R r / 2) ltac:(lra)) as SG. rewrite F in H |- *. rewrite (Rabs_pos_eq (sin (B2R r / 2))) in H |- * by lra. apply G2. lra.
Qed.

(** C10, second half: for every finite angle the approximants of Cl2 .. Cl6 return a finite value -
    no division by zero, no overflow, no NaN - in double and in x87 long double *)
Theorem C10_finite_double L x : libm_ok (Hp := Hp53) (He := He53) L -> is_finite x = true ->
  is_finite (Cl2_d (B64 L) x) = true /\ is_finite (Cl3_d (B64 L) x) = true /\ is_finite (Cl4_d (B64 L) x) = true /\
  is_finite (Cl5_d (B64 L) x) = true /\ is_finite (Cl6_d (B64 L) x) = true /\ is_nan (Cl1_d (B64 L) x) = false.
Proof.
  intros HL Fx. repeat split; [apply (C43_Cl2_double L x HL Fx)|apply (C43_Cl3_double L x HL Fx)|apply (C43_Cl4_double L x HL Fx)|apply (C43_Cl5_double L x HL Fx)|apply (C43_Cl6_double L x HL Fx)|].
  destruct (C43_Cl1_double L x HL Fx) as [[-> |H] _]; [reflexivity|]. destruct (Cl1_d (B64 L) x); try reflexivity; discriminate.
Qed.
Theorem C10_finite_long_double L x : libm_ok (Hp := Hp64) (He := He64) L -> is_finite x = true ->
  is_finite (Cl2_l (B80 L) x) = true /\ is_finite (Cl3_l (B80 L) x) = true /\ is_finite (Cl4_l (B80 L) x) = true /\
  is_finite (Cl5_l (B80 L) x) = true /\ is_finite (Cl6_l (B80 L) x) = true.
Proof.
  intros HL Fx. repeat split; [apply (C43_Cl2_long_double L x HL Fx)|apply (C43_Cl3_long_double L x HL Fx)|apply (C43_Cl4_long_double L x HL Fx)|apply (C43_Cl5_long_double L x HL Fx)|apply (C43_Cl6_long_double L x HL Fx)].
Qed.

(** The hypotheses can be met: a correctly rounded library, and the largest finite double as the angle. *)
Definition x_big : binary_float 53 1024 := blit 53 1024 Hp53 He53 17976931348623157 292.
Lemma x_big_fin : is_finite x_big = true.
Proof. rewrite <- is_finite_SF_B2SF. vm_compute. reflexivity. Qed.
Example C10_example : good_reduction true x_big (fst (Cl_range_reduce (B64 L64) 2 x_big)) (snd (Cl_range_reduce (B64 L64) 2 x_big)).
Proof. exact (C10_reduced_angle_Cl L64 2 x_big x_big_fin). Qed.
Example C43_example : accurate 2 (42 / 2 ^ 53) (4 / 10 ^ 17) (23 / 10 ^ 17) (Cl2_d (B64 L64) x_big) x_big.
Proof. exact (C43_Cl2_double L64 x_big libm_ok_64 x_big_fin). Qed.
