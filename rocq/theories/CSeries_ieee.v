(** * The series of Li(7,z) beside the real axis in double arithmetic: the loop invariant *)
From Coq Require Import ZArith Reals Bool Lia Lra Psatz List.
From Coquelicot Require Import Coquelicot.
From Flocq Require Import Core Relative Plus_error IEEE754.BinarySingleNaN.
From Verif Require Import Outcome Num NumR NumB NumB_facts Proof_Float Libm Fcalc Model_Li Ieee Li34_ieee CvsCpp CLi2_ieee.
Import ListNotations.
Local Open Scope R_scope.
Local Notation is_finite := BinarySingleNaN.is_finite.

Section S.
Variable L : libm 53 1024.
Hypothesis HL : libm_ok (Hp := Hp53) (He := He53) L.
Notation N := (B64 L).
Notation bfl := (binary_float 53 1024).
Notation bfexp := (SpecFloat.fexp 53 1024).
Notation rnd := (round radix2 bfexp ZnearestE).
Notation bu := (Fcalc.u 53).
Local Instance VE : Valid_exp bfexp := fexp_correct 53 1024 Hp53.

(** the smallest positive double, and the imaginary part of the argument *)
Definition w : R := bpow radix2 (-1074).
Definition yy : R := bpow radix2 (-1028).
Lemma w_pos : 0 < w. Proof. apply bpow_gt_0. Qed.
Lemma yy_w : yy = 70368744177664 * w.
Proof. unfold yy, w. change (-1028)%Z with (46 + -1074)%Z. rewrite bpow_plus. f_equal. Qed.
Lemma yy_small : yy <= / 10 ^ 60.
Proof. unfold yy. apply Rle_trans with (bpow radix2 (-200)); [apply bpow_le; lia|]. rewrite Fcalc.bp2. change (Pos.to_nat 200) with 200%nat. apply Rinv_le_contravar; [lra|]. lra. Qed.
Lemma eta_w : Fcalc.eta 53 1024 = w / 2.
Proof. unfold Fcalc.eta, w. change (3 - 1024 - 53 - 1)%Z with (-1 + -1074)%Z. rewrite bpow_plus. change (bpow radix2 (-1)) with (/ 2). field. Qed.
Lemma rerr r : Rabs (rnd r - r) <= bu * Rabs r + w / 2.
Proof. rewrite <- eta_w. exact (rnd_err 53 1024 Hp53 r). Qed.
Lemma fmt_b k : (-1074 <= k <= 1000)%Z -> generic_format radix2 bfexp (bpow radix2 k).
Proof. intros H. apply generic_format_bpow. unfold SpecFloat.fexp, SpecFloat.emin. lia. Qed.
Lemma rmono a b : a <= b -> rnd a <= rnd b.
Proof. intros H. apply round_le; [exact VE|apply valid_rnd_N|exact H]. Qed.
Lemma rid r : generic_format radix2 bfexp r -> rnd r = r.
Proof. intros H. apply round_generic; [apply valid_rnd_N|exact H]. Qed.
Lemma rrid r : rnd (rnd r) = rnd r.
Proof. apply rid, generic_format_round; [exact VE|apply valid_rnd_N]. Qed.
Lemma r0 : rnd 0 = 0. Proof. apply round_0, valid_rnd_N. Qed.
Lemma rpos r : 0 <= r -> 0 <= rnd r. Proof. intros H. rewrite <- r0. apply rmono, H. Qed.
Lemma ge_w r : 0 < rnd r -> w <= rnd r.
Proof.
  intros H. apply (generic_format_ge_bpow radix2 bfexp (-1074)); [intros e; unfold SpecFloat.fexp, SpecFloat.emin; lia|exact H|apply generic_format_round; [exact VE|apply valid_rnd_N]].
Qed.
Lemma rpow a k : (-1074 <= k <= 1000)%Z -> bpow radix2 k <= a -> bpow radix2 k <= rnd a.
Proof. intros K H. rewrite <- (rid _ (fmt_b k K)). apply rmono, H. Qed.
(** an underflowing product *)
Lemma rnd_tiny r : 0 <= r <= w / 4 -> rnd r = 0.
Proof.
  intros H. destruct (Rle_lt_or_eq_dec 0 (rnd r) (rpos r (proj1 H))) as [G|G]; [|auto]. exfalso. pose proof (ge_w r G). pose proof (rerr r) as E. pose proof u_b as U. pose proof w_pos.
  rewrite (Rabs_pos_eq r) in E by lra. assert (bu * r <= / 10 ^ 15 * r) by (apply Rmult_le_compat_r; [lra|exact (proj2 U)]). apply Rabs_le_inv in E. lra.
Qed.
(** more than half of the smallest double rounds up to it *)
Lemma rnd_half r : 502 / 1000 * w <= r -> w <= rnd r.
Proof.
  intros H. apply ge_w. pose proof w_pos as W. assert (G : rnd (502 / 1000 * w) <= rnd r) by (apply rmono, H). eapply Rlt_le_trans; [|exact G].
  pose proof (rerr (502 / 1000 * w)) as E. rewrite (Rabs_pos_eq (502 / 1000 * w)) in E by lra. pose proof u_b as U. assert (bu * (502 / 1000 * w) <= / 10 ^ 15 * (502 / 1000 * w)) by (apply Rmult_le_compat_r; [lra|exact (proj2 U)]). apply Rabs_le_inv in E. lra.
Qed.
Lemma rnd_up r e : 0 <= r -> 0 <= e -> bu * r <= e -> rnd r <= r + e + w / 2.
Proof. intros H H0 H1. pose proof (rerr r) as E. rewrite (Rabs_pos_eq r) in E by exact H. apply Rabs_le_inv in E. lra. Qed.

Lemma add_b (f g : bfl) : is_finite f = true -> is_finite g = true -> Rabs (B2R f + B2R g) <= BIG 1024 -> is_finite (add N f g) = true /\ B2R (add N f g) = rnd (B2R f + B2R g).
Proof. exact (add_r 53 1024 Hp53 He53 ltac:(lia) ltac:(lia) ltac:(lia) L f g). Qed.
Lemma sub_b (f g : bfl) : is_finite f = true -> is_finite g = true -> Rabs (B2R f - B2R g) <= BIG 1024 -> is_finite (sub N f g) = true /\ B2R (sub N f g) = rnd (B2R f - B2R g).
Proof. exact (sub_r 53 1024 Hp53 He53 ltac:(lia) ltac:(lia) ltac:(lia) L f g). Qed.
Lemma mul_b (f g : bfl) : is_finite f = true -> is_finite g = true -> Rabs (B2R f * B2R g) <= BIG 1024 -> is_finite (mul N f g) = true /\ B2R (mul N f g) = rnd (B2R f * B2R g).
Proof. exact (mul_r 53 1024 Hp53 He53 ltac:(lia) ltac:(lia) ltac:(lia) L f g). Qed.
Lemma div_b (f g : bfl) : is_finite f = true -> B2R g <> 0 -> Rabs (B2R f / B2R g) <= BIG 1024 -> is_finite (div N f g) = true /\ B2R (div N f g) = rnd (B2R f / B2R g).
Proof. exact (div_r 53 1024 Hp53 He53 ltac:(lia) ltac:(lia) ltac:(lia) L f g). Qed.

(** the factor of one pass: r = pow(k/(1+k), 7) *)
Definition q (k : Z) : N := npow N (div N (ofZ N k) (add N (lit N 1 0) (ofZ N k))) (ofZ N 7).
Lemma ofZ_v k : (Z.abs k <= 2 ^ 53)%Z -> is_finite (ofZ N k) = true /\ B2R (ofZ N k) = IZR k.
Proof. intros H. destruct (ofZ_exact 53 1024 Hp53 He53 ltac:(lia) k H) as [E F]. split; assumption. Qed.
Lemma big_1 x : Rabs x <= 2 ^ 54 -> Rabs x <= BIG 1024.
Proof. intros H. eapply Rle_trans; [exact H|]. unfold BIG. apply Rle_trans with (bpow radix2 54); [right; rewrite bpow_powerRZ; reflexivity|apply bpow_le; lia]. Qed.
Lemma fmt_Z k : (Z.abs k <= 2 ^ 53)%Z -> rnd (IZR k) = IZR k.
Proof. intros H. apply rid. apply (format_IZR 53 1024 Hp53 He53 ltac:(lia)). exact H. Qed.
Lemma q_arg k : (1 <= k <= 2 ^ 46)%Z -> is_finite (div N (ofZ N k) (add N (lit N 1 0) (ofZ N k))) = true /\
  B2R (div N (ofZ N k) (add N (lit N 1 0) (ofZ N k))) <= 1 /\ IZR k / IZR (k + 1) - / 10 ^ 14 <= B2R (div N (ofZ N k) (add N (lit N 1 0) (ofZ N k))).
Proof.
  intros Hk. destruct (ofZ_v k ltac:(lia)) as [F1 V1]. destruct (int_v L 1 ltac:(lia)) as [F2 V2].
  assert (K1 : 1 <= IZR k) by (apply IZR_le; lia). assert (K2 : IZR k <= 2 ^ 46) by (change (2 ^ 46) with (2 ^ 46); replace (2 ^ 46) with (IZR (2 ^ 46)) by (cbn; lra); apply IZR_le; lia).
  destruct (add_b (lit N 1 0) (ofZ N k) F2 F1) as [F3 V3]. { apply big_1. rewrite V1, V2, Rabs_pos_eq by lra. lra. }
  rewrite V1, V2 in V3. replace (1 + IZR k) with (IZR (k + 1)) in V3 by (rewrite plus_IZR; lra). rewrite fmt_Z in V3 by lia.
  assert (K3 : IZR (k + 1) = IZR k + 1) by (rewrite plus_IZR; reflexivity).
  set (d := add N (lit N 1 0) (ofZ N k)) in *. assert (D0 : 0 <= IZR k / IZR (k + 1) <= 1). { rewrite K3. split; [apply Rdiv_le_0_compat; lra|]. apply (Rmult_le_reg_r (IZR k + 1)); [lra|]. unfold Rdiv. rewrite Rmult_assoc, Rinv_l by lra. lra. }
  destruct (div_b (ofZ N k) d F1) as [F4 V4]. { rewrite V3, K3. lra. } { apply big_1. rewrite V1, V3, Rabs_pos_eq by lra. lra. }
  rewrite V1, V3 in V4. rewrite V4. split; [exact F4|]. split.
  - apply Rle_trans with (rnd (IZR 1)); [apply rmono; lra|rewrite fmt_Z by lia; lra].
  - pose proof (rerr (IZR k / IZR (k + 1))) as E. rewrite (Rabs_pos_eq (IZR k / IZR (k + 1))) in E by lra. pose proof u_b as U. pose proof yy_small as Y. pose proof yy_w as YW. pose proof w_pos as W.
    assert (bu * (IZR k / IZR (k + 1)) <= / 10 ^ 15 * 1) by (apply Rmult_le_compat; lra). apply Rabs_le_inv in E. lra.
Qed.
Lemma q_lo k c : (1 <= k <= 2 ^ 46)%Z -> 0 <= c -> c + / 10 ^ 14 <= IZR k / IZR (k + 1) ->
  is_finite (q k) = true /\ B2R (q k) <= 10001 / 10000 /\ c ^ 7 - / 10 ^ 14 <= B2R (q k) /\ 0 <= B2R (q k).
Proof.
  intros Hk Hc H. destruct (q_arg k Hk) as (F & U1 & L1). set (x := div N (ofZ N k) (add N (lit N 1 0) (ofZ N k))) in *.
  assert (K1 : / 2 <= IZR k / IZR (k + 1)). { rewrite plus_IZR. assert (1 <= IZR k) by (apply IZR_le; lia). apply (Rmult_le_reg_r (IZR k + 1)); [lra|]. unfold Rdiv. rewrite Rmult_assoc, Rinv_l by lra. lra. }
  assert (X0 : 49 / 100 <= B2R x) by lra. destruct (ofZ_v 7 ltac:(lia)) as [F7 V7].
  assert (P7 : Rpower (B2R x) (B2R (ofZ N 7)) = B2R x ^ 7). { rewrite V7. replace (IZR 7) with (INR 7) by (rewrite INR_IZR_INZ; reflexivity). apply Rpower_pow. lra. }
  assert (PW1 : B2R x ^ 7 <= 1). { replace 1 with (1 ^ 7) by lra. apply pow_incr. lra. }
  assert (PW0 : (49 / 100) ^ 7 <= B2R x ^ 7) by (apply pow_incr; lra).
  assert (PWc : c ^ 7 <= B2R x ^ 7) by (apply pow_incr; lra).
  destruct (pow_acc _ _ _ _ L HL x (ofZ N 7) F F7 ltac:(lra)) as [FR DR]. { rewrite P7. eapply Rle_trans; [exact PW1|]. change 1 with (bpow radix2 0). apply bpow_le. lia. }
  change (m_pow 53 1024 L x (ofZ N 7)) with (q k) in FR, DR. rewrite P7 in DR. rewrite (Rabs_pos_eq (B2R x ^ 7)) in DR by (apply pow_le; lra).
  assert (E1 : bpow radix2 (2 - 53) * B2R x ^ 7 + bpow radix2 (3 - 1024 - 53) <= / 10 ^ 14).
  { change (bpow radix2 (3 - 1024 - 53)) with w. pose proof yy_small as Y. pose proof yy_w as YW. pose proof w_pos as W. assert (bpow radix2 (2 - 53) * B2R x ^ 7 <= / 2 ^ 51 * 1). { apply Rmult_le_compat; [apply bpow_ge_0|apply pow_le; lra|right; change (2 - 53)%Z with (-51)%Z; rewrite Fcalc.bp2; reflexivity|exact PW1]. } lra. }
  apply Rabs_le_inv in DR. split; [exact FR|]. split; [lra|]. split; [lra|]. lra.
Qed.

(** the factor times the argument *)
Variables x y : bfl.
Hypothesis Fx : is_finite x = true.
Hypothesis Fy : is_finite y = true.
Hypothesis Vx : B2R x = 3 / 4.
Hypothesis Vy : B2R y = yy.
Definition fr (k : Z) : N := mul N x (q k).
Definition fi (k : Z) : N := mul N y (q k).
Lemma f_bounds k c : (1 <= k <= 2 ^ 46)%Z -> 0 <= c -> c + / 10 ^ 14 <= IZR k / IZR (k + 1) ->
  is_finite (fr k) = true /\ is_finite (fi k) = true /\ 3 / 4 * c ^ 7 - / 10 ^ 13 <= B2R (fr k) /\ 0 <= B2R (fr k) <= 751 / 1000 /\ 0 <= B2R (fi k) <= 1001 / 1000 * yy + w.
Proof.
  intros Hk Hc H. destruct (q_lo k c Hk Hc H) as (F & U1 & L1 & L0). pose proof u_b as U. pose proof yy_small as Y. pose proof yy_w as YW. pose proof w_pos as W.
  destruct (mul_b x (q k) Fx F) as [F1 V1]. { apply big_1. rewrite Vx, Rabs_pos_eq by lra. lra. }
  assert (YQ : 0 <= yy * B2R (q k) <= 10001 / 10000 * yy) by (split; [apply Rmult_le_pos; lra|rewrite (Rmult_comm yy); apply Rmult_le_compat_r; lra]).
  destruct (mul_b y (q k) Fy F) as [F2 V2]. { apply big_1. rewrite Vy, Rabs_pos_eq by lra. lra. }
  rewrite Vx in V1. rewrite Vy in V2. fold (fr k) in F1, V1. fold (fi k) in F2, V2. split; [exact F1|]. split; [exact F2|].
  pose proof (rerr (3 / 4 * B2R (q k))) as E1. rewrite (Rabs_pos_eq (3 / 4 * B2R (q k))) in E1 by lra. assert (B1 : bu * (3 / 4 * B2R (q k)) <= / 10 ^ 15 * 1) by (apply Rmult_le_compat; lra). apply Rabs_le_inv in E1. rewrite <- V1 in E1.
  pose proof (rerr (yy * B2R (q k))) as E2. rewrite (Rabs_pos_eq (yy * B2R (q k))) in E2 by lra. assert (B2 : bu * (yy * B2R (q k)) <= / 10 ^ 15 * (10001 / 10000 * yy)) by (apply Rmult_le_compat; lra). apply Rabs_le_inv in E2. rewrite <- V2 in E2.
  assert (P1 : 0 <= B2R (fr k)) by (rewrite V1; apply rpos; lra). assert (P2 : 0 <= B2R (fi k)) by (rewrite V2; apply rpos; lra).
  repeat split; lra.
Qed.
(** lower bounds of the imaginary part of the term before pass k+1 *)
Definition b (k : Z) : Z := if (k =? 1)%Z then -8 else if (k =? 2)%Z then -5 else if (k =? 3)%Z then -4 else if (k <=? 5)%Z then -3 else -2.
Definition a (k : Z) : Z := if (k =? 0)%Z then -1028 else if (k =? 1)%Z then -1036 else if (k =? 2)%Z then -1041 else if (k =? 3)%Z then -1045 else if (k =? 4)%Z then -1048
  else if (k <=? 16)%Z then -1041 - 2 * k else -1074.
Lemma a_step k : (1 <= k <= 16)%Z -> (a k = a (k - 1) + b k)%Z /\ (-1074 <= a k <= 1000)%Z.
Proof. intros H. assert (k = 1 \/ k = 2 \/ k = 3 \/ k = 4 \/ k = 5 \/ k = 6 \/ k = 7 \/ k = 8 \/ k = 9 \/ k = 10 \/ k = 11 \/ k = 12 \/ k = 13 \/ k = 14 \/ k = 15 \/ k = 16)%Z as K by lia. repeat (destruct K as [->|K]; [split; [reflexivity|cbv; split; discriminate]|]). subst. split; [reflexivity|cbv; split; discriminate]. Qed.
Lemma ratio_lo k n : (1 <= n <= k)%Z -> IZR n / IZR (n + 1) <= IZR k / IZR (k + 1).
Proof.
  intros H. rewrite !plus_IZR. assert (1 <= IZR n) by (apply IZR_le; lia). assert (IZR n <= IZR k) by (apply IZR_le; lia).
  apply (Rmult_le_reg_r ((IZR n + 1) * (IZR k + 1))); [nra|]. field_simplify; [|lra|lra]. nra.
Qed.
Lemma fr_lo k : (1 <= k <= 16)%Z -> bpow radix2 (b k) <= B2R (fr k).
Proof.
  intros H. assert (K : forall n c, (1 <= n <= k)%Z -> 0 <= c -> c + / 10 ^ 14 <= IZR n / IZR (n + 1) -> 3 / 4 * c ^ 7 - / 10 ^ 13 <= B2R (fr k)).
  { intros n c Hn Hc G. pose proof (ratio_lo k n Hn). apply (f_bounds k c); [lia|exact Hc|lra]. }
  unfold b. destruct (k =? 1)%Z eqn:E1; [|destruct (k =? 2)%Z eqn:E2; [|destruct (k =? 3)%Z eqn:E3; [|destruct (k <=? 5)%Z eqn:E4]]]; rewrite ?Z.eqb_eq, ?Z.eqb_neq, ?Z.leb_le, ?Z.leb_gt in *.
  - rewrite Fcalc.bp2. change (Pos.to_nat 8) with 8%nat. eapply Rle_trans; [|apply (K 1%Z (49 / 100)); [lia|lra|rewrite plus_IZR; lra]]. lra.
  - rewrite Fcalc.bp2. change (Pos.to_nat 5) with 5%nat. eapply Rle_trans; [|apply (K 2%Z (66 / 100)); [lia|lra|rewrite plus_IZR; lra]]. lra.
  - rewrite Fcalc.bp2. change (Pos.to_nat 4) with 4%nat. eapply Rle_trans; [|apply (K 3%Z (74 / 100)); [lia|lra|rewrite plus_IZR; lra]]. lra.
  - rewrite Fcalc.bp2. change (Pos.to_nat 3) with 3%nat. eapply Rle_trans; [|apply (K 4%Z (79 / 100)); [lia|lra|rewrite plus_IZR; lra]]. lra.
  - rewrite Fcalc.bp2. change (Pos.to_nat 2) with 2%nat. eapply Rle_trans; [|apply (K 6%Z (857 / 1000)); [lia|lra|rewrite plus_IZR; lra]]. lra.
Qed.
Lemma fr_hi k : (17 <= k <= 2 ^ 46)%Z -> 502 / 1000 <= B2R (fr k).
Proof.
  intros H. pose proof (ratio_lo k 17 ltac:(lia)) as G. rewrite (plus_IZR 17) in G. destruct (f_bounds k (94444 / 100000) ltac:(lia) ltac:(lra) ltac:(lra)) as (_ & _ & B & _). lra.
Qed.

(** the state before pass k+1 *)
Record inv (k : Z) (s p : cpx N) : Prop := {
  i_f : (is_finite (fst s) = true /\ is_finite (snd s) = true) /\ is_finite (fst p) = true /\ is_finite (snd p) = true;
  i_pr : 0 <= B2R (fst p) <= 1;
  i_pi : bpow radix2 (a k) <= B2R (snd p);
  i_sr : 0 <= B2R (fst s) <= IZR k;
  i_si : 0 <= B2R (snd s);
  i_pot : B2R (snd s) + 5 * B2R (snd p) + 21 * (yy * B2R (fst p)) <= 21 * yy + 22 * (w * IZR k)
}.
Lemma a_ge k : (0 <= k)%Z -> (-1074 <= a k)%Z.
Proof. intros H. unfold a. repeat match goal with |- context [if ?t then _ else _] => destruct t eqn:? end; lia. Qed.
Lemma pi_next k pi : (1 <= k <= 2 ^ 46)%Z -> bpow radix2 (a (k - 1)) <= pi -> bpow radix2 (a k) <= rnd (pi * B2R (fr k)).
Proof.
  intros Hk Hp. destruct (Z_le_gt_dec k 16) as [K|K].
  - destruct (a_step k ltac:(lia)) as [E R]. apply rpow; [exact R|]. rewrite E, bpow_plus. apply Rmult_le_compat; [apply bpow_ge_0|apply bpow_ge_0|exact Hp|apply fr_lo; lia].
  - assert (E : a k = (-1074)%Z). { unfold a. replace (k =? 0)%Z with false by (symmetry; apply Z.eqb_neq; lia). replace (k =? 1)%Z with false by (symmetry; apply Z.eqb_neq; lia). replace (k =? 2)%Z with false by (symmetry; apply Z.eqb_neq; lia). replace (k =? 3)%Z with false by (symmetry; apply Z.eqb_neq; lia). replace (k =? 4)%Z with false by (symmetry; apply Z.eqb_neq; lia). replace (k <=? 16)%Z with false by (symmetry; apply Z.leb_gt; lia). reflexivity. }
    rewrite E. fold w. apply rnd_half. assert (w <= pi) by (eapply Rle_trans; [|exact Hp]; apply bpow_le, a_ge; lia). pose proof (fr_hi k ltac:(lia)). pose proof w_pos. rewrite (Rmult_comm pi). apply Rmult_le_compat; lra.
Qed.
Lemma inv_small k s p : (0 <= k <= 2 ^ 46)%Z -> inv k s p -> w <= B2R (snd p) /\ B2R (snd s) + 5 * B2R (snd p) <= 43 * yy /\ B2R (snd p) <= 9 * yy.
Proof.
  intros Hk [_ Ipr Ipi _ Isi Ipot]. pose proof w_pos as W. pose proof yy_w as YW. assert (Y0 : 0 < yy) by lra.
  assert (W1 : w <= B2R (snd p)) by (eapply Rle_trans; [|exact Ipi]; apply bpow_le, a_ge; lia).
  assert (K2 : w * IZR k <= yy). { rewrite YW, Rmult_comm. apply Rmult_le_compat_r; [lra|]. replace 70368744177664 with (IZR (2 ^ 46)) by reflexivity. apply IZR_le; lia. }
  assert (P0 : 0 <= yy * B2R (fst p)) by (apply Rmult_le_pos; lra). split; [exact W1|]. split; lra.
Qed.
Lemma w_yy : w <= yy / 1000. Proof. pose proof yy_w. pose proof w_pos. lra. Qed.
Definition uc : R := / 2 ^ 53.
Lemma u_uc : bu = uc. Proof. exact u_val. Qed.
Lemma facts : yy <= / 100 /\ 18 * (yy * yy) <= w / 4 /\ yy * w <= / 100 * w /\ uc * (50 * yy) <= w / 2.
Proof.
  pose proof yy_small as YS. pose proof yy_w as YW. pose proof w_pos as W. split; [lra|]. split; [|split].
  - assert (yy * yy <= / 10 ^ 60 * (70368744177664 * w)) by (apply Rmult_le_compat; lra). lra.
  - apply Rmult_le_compat_r; lra.
  - rewrite YW. unfold uc. clear YS YW. lra.
Qed.
Lemma big_2 v : Rabs v <= 100 -> Rabs v <= BIG 1024.
Proof. intros H. apply big_1. lra. Qed.
Lemma big_k k s p : (0 <= k < 2 ^ 46)%Z -> 0 <= s <= IZR k -> 0 <= p <= 1 -> Rabs (s + p) <= BIG 1024.
Proof.
  intros Hk Hs Hp'. assert (K2 : IZR k <= 2 ^ 46) by (replace (2 ^ 46) with (IZR (2 ^ 46)) by (cbn; lra); apply IZR_le; lia). apply big_1. rewrite Rabs_pos_eq by lra. lra.
Qed.
Lemma inv_step k s p : (0 <= k < 2 ^ 46)%Z -> inv k s p ->
  inv (k + 1) (cadd N s p) (cmul N p (fr (k + 1), fi (k + 1))) /\ B2R (snd (cadd N s p)) = B2R (snd s) + B2R (snd p).
Proof.
  intros Hk I. pose proof (inv_small k s p ltac:(lia) I) as (W1 & S1 & P9). destruct I as [((Fs1 & Fs2) & Fp1 & Fp2) Ipr Ipi Isr Isi Ipot].
  pose proof w_pos as W. pose proof w_yy as WY. assert (Y0 : 0 < yy) by lra.
  assert (U : 0 < bu <= / 1000) by (pose proof u_b; lra). destruct facts as (YS & YYW & YW2 & UC).
  assert (K0 : 0 <= IZR k) by (apply IZR_le; lia).
  destruct (f_bounds (k + 1) 0 ltac:(lia) ltac:(lra)) as (Ff1 & Ff2 & _ & Bfr & Bfi).
  { pose proof (ratio_lo (k + 1) 1 ltac:(lia)) as G. rewrite (plus_IZR 1) in G. lra. }
  set (c := fr (k + 1)) in *. set (e := fi (k + 1)) in *.
  assert (Bfi2 : B2R e <= 2 * yy) by lra.
  (* the products *)
  assert (M1 : 0 <= B2R (fst p) * B2R c <= 751 / 1000 * B2R (fst p)) by (split; [apply Rmult_le_pos; lra|rewrite Rmult_comm; apply Rmult_le_compat_r; lra]).
  assert (M2 : 0 <= B2R (snd p) * B2R e <= w / 4).
  { split; [apply Rmult_le_pos; lra|]. apply Rle_trans with (9 * yy * (2 * yy)); [apply Rmult_le_compat; lra|]. replace (9 * yy * (2 * yy)) with (18 * (yy * yy)) by ring. lra. }
  assert (M3 : 0 <= B2R (fst p) * B2R e <= 1001 / 1000 * (yy * B2R (fst p)) + w).
  { split; [apply Rmult_le_pos; lra|]. apply Rle_trans with (B2R (fst p) * (1001 / 1000 * yy + w)); [apply Rmult_le_compat_l; lra|]. rewrite Rmult_plus_distr_l. assert (B2R (fst p) * w <= 1 * w) by (apply Rmult_le_compat_r; lra). lra. }
  assert (M3' : B2R (fst p) * B2R e <= 3 * yy). { assert (yy * B2R (fst p) <= yy * 1) by (apply Rmult_le_compat_l; lra). lra. }
  assert (M4 : 0 <= B2R (snd p) * B2R c <= 751 / 1000 * B2R (snd p)) by (split; [apply Rmult_le_pos; lra|rewrite Rmult_comm; apply Rmult_le_compat_r; lra]).
  destruct (mul_b (fst p) c Fp1 Ff1) as [G1 V1]; [apply big_2; rewrite Rabs_pos_eq; lra|].
  destruct (mul_b (snd p) e Fp2 Ff2) as [G2 V2]; [apply big_2; rewrite Rabs_pos_eq; lra|]. rewrite (rnd_tiny _ M2) in V2.
  destruct (mul_b (fst p) e Fp1 Ff2) as [G3 V3]; [apply big_2; rewrite Rabs_pos_eq; lra|].
  destruct (mul_b (snd p) c Fp2 Ff1) as [G4 V4]; [apply big_2; rewrite Rabs_pos_eq; lra|].
  (* upward errors *)
  assert (UY : forall t, 0 <= t <= 50 * yy -> bu * t <= w / 2).
  { intros t Ht. apply Rle_trans with (uc * (50 * yy)); [apply Rmult_le_compat; [lra|lra|exact (Req_le _ _ u_uc)|lra]|]. exact UC. }
  assert (R1 : B2R (mul N (fst p) c) <= 752 / 1000 * B2R (fst p) + w / 2).
  { rewrite V1. assert (bu * (B2R (fst p) * B2R c) <= / 1000 * (B2R (fst p))) by (apply Rmult_le_compat; lra). eapply Rle_trans; [apply (rnd_up _ (/ 1000 * B2R (fst p))); lra|]. lra. }
  assert (R1' : 0 <= B2R (mul N (fst p) c) <= 1). { rewrite V1. split; [apply rpos; lra|]. apply Rle_trans with (rnd (IZR 1)); [apply rmono; lra|rewrite fmt_Z by lia; lra]. }
  assert (R3 : 0 <= B2R (mul N (fst p) e) <= 1001 / 1000 * (yy * B2R (fst p)) + 2 * w).
  { rewrite V3. split; [apply rpos; lra|]. eapply Rle_trans; [apply (rnd_up _ (w / 2)); [lra|lra|apply UY; lra]|]. lra. }
  assert (R4 : 0 <= B2R (mul N (snd p) c) <= 751 / 1000 * B2R (snd p) + w).
  { rewrite V4. split; [apply rpos; lra|]. eapply Rle_trans; [apply (rnd_up _ (w / 2)); [lra|lra|apply UY; lra]|]. lra. }
  assert (R3' : B2R (mul N (fst p) e) <= 10 * yy). { assert (yy * B2R (fst p) <= yy * 1) by (apply Rmult_le_compat_l; lra). lra. }
  (* the components of the next term *)
  destruct (sub_b (mul N (fst p) c) (mul N (snd p) e) G1 G2) as [G5 V5]; [apply big_2; rewrite V2, Rminus_0_r, Rabs_pos_eq; lra|].
  rewrite V2, Rminus_0_r, V1, rrid, <- V1 in V5.
  destruct (add_b (mul N (fst p) e) (mul N (snd p) c) G3 G4) as [G6 V6]; [apply big_2; rewrite Rabs_pos_eq; lra|].
  (* the next partial sum *)
  destruct (add_b (fst s) (fst p) Fs1 Fp1) as [G7 V7]; [apply (big_k k); [lia|exact Isr|exact Ipr]|].
  destruct (add_b (snd s) (snd p) Fs2 Fp2) as [G8 V8]; [apply big_2; rewrite Rabs_pos_eq; lra|].
  assert (V8' : B2R (add N (snd s) (snd p)) = B2R (snd s) + B2R (snd p)).
  { rewrite V8. apply rid. apply (FLT_format_plus_small radix2 (-1074) 53); [apply generic_format_B2R|apply generic_format_B2R|].
    rewrite Rabs_pos_eq by lra. apply Rle_trans with (bpow radix2 (6 + -1028)); [|apply bpow_le; lia]. rewrite bpow_plus. fold yy. change (bpow radix2 6) with 64. lra. }
  split; [|exact V8']. constructor; unfold cadd, cmul; cbn [fst snd].
  - tauto.
  - rewrite V5. exact R1'.
  - rewrite V6. replace (k + 1)%Z with (k + 1)%Z by ring. eapply Rle_trans; [apply (pi_next (k + 1) (B2R (snd p)) ltac:(lia)); replace (k + 1 - 1)%Z with k by ring; exact Ipi|].
    fold c. rewrite <- V4. rewrite <- (rid (B2R (mul N (snd p) c))) at 1 by apply generic_format_B2R. apply rmono. lra.
  - rewrite V7. split; [apply rpos; lra|]. rewrite <- (fmt_Z (k + 1)) by lia. apply rmono. rewrite plus_IZR. lra.
  - rewrite V8'. lra.
  - rewrite V8', V5, V6, plus_IZR.
    assert (R6 : rnd (B2R (mul N (fst p) e) + B2R (mul N (snd p) c)) <= B2R (mul N (fst p) e) + B2R (mul N (snd p) c) + w).
    { eapply Rle_trans; [apply (rnd_up _ (w / 2)); [lra|lra|apply UY; lra]|]. lra. }
    assert (Q : yy * B2R (mul N (fst p) c) <= 752 / 1000 * (yy * B2R (fst p)) + w / 100).
    { apply Rle_trans with (yy * (752 / 1000 * B2R (fst p) + w / 2)); [apply Rmult_le_compat_l; lra|]. lra. }
    assert (P0 : 0 <= yy * B2R (fst p)) by (apply Rmult_le_pos; lra). lra.
Qed.
Lemma eqb_false (f g : bfl) : is_finite f = true -> is_finite g = true -> B2R f <> B2R g -> eqb N f g = false.
Proof. intros F G H. rewrite (eqb_R L) by assumption. apply Req_bool_false. exact H. Qed.
End S.

(** one pass that goes on, for any arithmetic *)
Section G.
Variable N : num.
Lemma loop_go f n (z s p : cpx N) k : i64 (k + 1) = Val (k + 1)%Z ->
  Model_Li.is_finite N (cmul N p (cmul_cr N z (npow N (div N (ofZ N (k + 1)) (add N (lit N 1 0) (ofZ N (k + 1)))) (ofZ N n)))) = true ->
  ceqb N (cadd N s p) s = false -> (k + 1 <? INT64_MAX - 2)%Z = true ->
  Li_series_loop N (S f) n z k s p = Li_series_loop N f n z (k + 1) (cadd N s p) (cmul N p (cmul_cr N z (npow N (div N (ofZ N (k + 1)) (add N (lit N 1 0) (ofZ N (k + 1)))) (ofZ N n)))).
Proof. intros H1 H2 H3 H4. cbn [Li_series_loop]. rewrite H1. cbn [bind]. cbv zeta. rewrite H2, H3, H4. reflexivity. Qed.
Lemma ceqb_snd (a b : cpx N) : eqb N (snd a) (snd b) = false -> ceqb N a b = false.
Proof. intros H. unfold ceqb. rewrite H. apply andb_false_r. Qed.
End G.

Section R.
Variable L : libm 53 1024.
Hypothesis HL : libm_ok (Hp := Hp53) (He := He53) L.
Notation N := (B64 L).
Lemma fin_ok (z : cpx N) : is_finite (fst z) = true -> is_finite (snd z) = true -> Model_Li.is_finite N z = true.
Proof. destruct z as [[s1|s1| |s1 m1 e1 B1] [s2|s2| |s2 m2 e2 B2]]; cbn; intros; try discriminate; reflexivity. Qed.
Variable z : cpx N.
Hypothesis Fz : is_finite (fst z) = true /\ is_finite (snd z) = true.
Hypothesis Vz : B2R (fst z) = 3 / 4 /\ B2R (snd z) = yy.
Lemma run_on f : forall k s p, (0 <= k)%Z -> (k + Z.of_nat f <= 2 ^ 46)%Z -> inv L k s p -> Li_series_loop N f 7 z k s p = NoFuel.
Proof.
  destruct Fz as [Fx Fy]. destruct Vz as [Vx Vy]. induction f as [|f IH]; intros k s p K0 K1 I; [reflexivity|].
  destruct (inv_step L HL (fst z) (snd z) Fx Fy Vx Vy k s p ltac:(lia) I) as [I' E]. pose proof (inv_small L k s p ltac:(lia) I) as (W1 & _ & _). pose proof w_pos as W.
  rewrite loop_go.
  - apply IH; [lia|lia|exact I'].
  - unfold i64. replace (_ && _)%bool with true; [reflexivity|]. symmetry. apply andb_true_intro. split; apply Z.leb_le; unfold INT64_MIN, INT64_MAX; lia.
  - apply fin_ok; apply (i_f L _ _ _ I').
  - apply ceqb_snd. apply eqb_false; [apply (i_f L _ _ _ I')|apply (i_f L _ _ _ I)|]. rewrite E. lra.
  - apply Z.ltb_lt. unfold INT64_MAX. lia.
Qed.
End R.
