(** * The series of Li(n,z) in the square |Re z|, |Im z| <= 1/5, in double arithmetic: orders above 2000 *)
From Coq Require Import ZArith Reals Bool Lia Lra Psatz List.
From Coquelicot Require Import Coquelicot.
From Interval Require Import Tactic.
From Flocq Require Import Core Relative IEEE754.BinarySingleNaN.
From Verif Require Import Outcome Num NumR Spec NumB NumB_facts Proof_Float Libm Fcalc Cplx Ccalc CLi CLi_disc Li_gen Model_Li Ieee Li34_ieee CvsCpp Cieee CLi2_ieee CSeries_ieee CSeries2_ieee.
Import ListNotations.
Local Open Scope R_scope.
Local Notation is_finite := BinarySingleNaN.is_finite.

Section S.
Variable L : libm 53 1024.
Hypothesis HL : libm_ok (Hp := Hp53) (He := He53) L.
Notation N := (B64 L).
Notation bfl := (binary_float 53 1024).
Notation bfexp := (SpecFloat.fexp 53 1024).
Notation rnd := (round radix2 bfexp ZnearestE).
Notation bu := (Fcalc.u 53).
Notation val := (Cieee.val L).
Notation finc := (Cieee.finc L).
Variable n : Z.
Hypothesis Hn : (2000 <= n <= INT64_MAX)%Z.

Lemma half_n y : 2000 <= y -> 0 < Rpower (51 / 100) y <= / 1000 * w.
Proof.
  intros Hy. split; [apply exp_pos|]. unfold Rpower. unfold w. rewrite bpow_exp. change (IZR radix2) with 2. replace (/ 1000) with (exp (ln (/ 1000))) by (apply exp_ln; lra). rewrite <- exp_plus.
  apply Rle_trans with (exp (2000 * ln (51 / 100))).
  - assert (A : y * ln (51 / 100) <= 2000 * ln (51 / 100)). { assert (ln (51 / 100) < 0) by (rewrite <- ln_1; apply ln_increasing; lra). assert (0 <= (y - 2000) * - ln (51 / 100)) by (apply Rmult_le_pos; lra). lra. }
    destruct (Rle_lt_or_eq_dec _ _ A) as [G|G]; [left; apply exp_increasing, G|rewrite G; apply Rle_refl].
  - left. apply exp_increasing. interval.
Qed.
(** pow(1/2, n) is below two units of the subnormal range *)
Lemma qn_tiny : is_finite (qn L n 1) = true /\ Rabs (B2R (qn L n 1)) <= 11 / 10 * w.
Proof.
  pose proof w_pos as W. assert (U : 0 < bu <= / 10 ^ 15) by exact u_b. destruct (q_arg L 1 ltac:(lia)) as (F & _ & Lo).
  assert (Hi : B2R (div N (ofZ N 1) (add N (lit N 1 0) (ofZ N 1))) <= 51 / 100).
  { destruct (ofZ_v L 1 ltac:(lia)) as [F1 V1]. destruct (int_v L 1 ltac:(lia)) as [F2 V2].
    destruct (add_b L (lit N 1 0) (ofZ N 1) F2 F1) as [F3 V3]. { apply big_1. rewrite V1, V2, Rabs_pos_eq by lra. lra. }
    rewrite V1, V2 in V3. rewrite <- plus_IZR in V3. change (1 + 1)%Z with 2%Z in V3. rewrite fmt_Z in V3 by lia.
    destruct (div_b L (ofZ N 1) (add N (lit N 1 0) (ofZ N 1)) F1) as [F4 V4]. { rewrite V3. lra. } { apply big_1. rewrite V1, V3, Rabs_pos_eq by lra. lra. }
    rewrite V4, V1, V3. pose proof (rerr (1 / 2)) as E. rewrite (Rabs_pos_eq (1 / 2)) in E by lra. apply Rabs_le_inv in E. pose proof w_small. lra. }
  set (x := div N (ofZ N 1) (add N (lit N 1 0) (ofZ N 1))) in *. assert (X0 : 0 < B2R x) by (change (IZR (1 + 1)) with 2 in Lo; lra).
  destruct (ofZ_n L n ltac:(lia)) as [Fn _]. assert (Vn : 2000 <= B2R (ofZ N n)).
  { destruct (ofZ_correct 53 1024 Hp53 He53 ltac:(lia) n) as [E _]. { apply Z.le_trans with (2 ^ 63)%Z; [unfold INT64_MAX in Hn; lia|apply Z.pow_le_mono_r; lia]. }
    assert (E' : B2R (ofZ N n) = rnd (IZR n)) by exact E. rewrite E'. rewrite <- (fmt_Z 2000) by lia. apply rmono. apply IZR_le. lia. }
  assert (P : 0 < Rpower (B2R x) (B2R (ofZ N n)) <= / 1000 * w).
  { split; [apply exp_pos|]. eapply Rle_trans; [|apply (half_n _ Vn)]. apply Rle_Rpower_l; lra. }
  destruct (pow_acc _ _ _ _ L HL x (ofZ N n) F Fn X0) as [FR DR]. { eapply Rle_trans; [apply P|]. pose proof w_small. apply Rle_trans with 1; [lra|]. change 1 with (bpow radix2 0). apply bpow_le. lia. }
  change (m_pow 53 1024 L x (ofZ N n)) with (qn L n 1) in FR, DR. rewrite (Rabs_pos_eq (Rpower _ _)) in DR by lra. set (v := Rpower (B2R x) (B2R (ofZ N n))) in *. clearbody v.
  split; [exact FR|]. replace (B2R (qn L n 1)) with ((B2R (qn L n 1) - v) + v) by ring. eapply Rle_trans; [apply Rabs_triang|]. rewrite (Rabs_pos_eq v) by lra. eapply Rle_trans; [apply Rplus_le_compat_r, DR|].
  change (bpow radix2 (3 - 1024 - 53)) with w. assert (B1 : bpow radix2 (2 - 53) <= 1) by (change 1 with (bpow radix2 0); apply bpow_le; lia).
  assert (bpow radix2 (2 - 53) * v <= 1 * v) by (apply Rmult_le_compat_r; lra). lra.
Qed.

Variable z : cpx N.
Hypothesis Fz : finc z.
Hypothesis Bz : Rabs (B2R (fst z)) <= / 5 /\ Rabs (B2R (snd z)) <= / 5.
Lemma next_0 : finc (nextp L z n 1 z) /\ cle L (nextp L z n 1 z) 0.
Proof.
  pose proof w_pos as W. destruct qn_tiny as [Fq Bq]. destruct (next_ok L HL z Fz Bz n ltac:(lia) 1 z (/ 5) ltac:(lia) Fz Bz ltac:(lra)) as [F _]. split; [exact F|].
  assert (Q : forall f : bfl, is_finite f = true -> Rabs (B2R f) <= / 5 -> is_finite (mul N f (qn L n 1)) = true /\ B2R (mul N f (qn L n 1)) = 0).
  { intros f Ff Bf. assert (A : Rabs (B2R f * B2R (qn L n 1)) <= / 5 * (11 / 10 * w)) by (rewrite Rabs_mult; apply Rmult_le_compat; try apply Rabs_pos; assumption).
    destruct (mul_b L f (qn L n 1) Ff Fq) as [G V]; [apply big_2; pose proof w_small; lra|]. split; [exact G|]. rewrite V. apply tiny_rnd. lra. }
  destruct Fz as [Fx Fy]. destruct Bz as [Bx By]. destruct (Q _ Fx Bx) as [G1 V1]. destruct (Q _ Fy By) as [G2 V2].
  assert (Z0 : forall a b : bfl, is_finite a = true -> is_finite b = true -> B2R b = 0 -> is_finite (mul N a b) = true /\ B2R (mul N a b) = 0).
  { intros a b Fa Fb Vb. destruct (mul_b L a b Fa Fb) as [G V]; [apply big_2; rewrite Vb, Rmult_0_r, Rabs_R0; lra|]. split; [exact G|]. rewrite V, Vb, Rmult_0_r. apply round_0. apply valid_rnd_N. }
  destruct (Z0 _ _ Fx G1 V1) as [A1 A2]. destruct (Z0 _ _ Fy G2 V2) as [B1 B2]. destruct (Z0 _ _ Fx G2 V2) as [C1 C2]. destruct (Z0 _ _ Fy G1 V1) as [D1 D2].
  destruct (sub_b L _ _ A1 B1) as [_ S1]; [apply big_2; rewrite A2, B2, Rminus_0_r, Rabs_R0; lra|]. destruct (add_b L _ _ C1 D1) as [_ S2]; [apply big_2; rewrite C2, D2, Rplus_0_r, Rabs_R0; lra|].
  rewrite A2, B2, Rminus_0_r, round_0 in S1 by apply valid_rnd_N. rewrite C2, D2, Rplus_0_r, round_0 in S2 by apply valid_rnd_N.
  split.
  - change (fst (nextp L z n 1 z)) with (sub N (mul N (fst z) (mul N (fst z) (qn L n 1))) (mul N (snd z) (mul N (snd z) (qn L n 1)))). rewrite S1, Rabs_R0. apply Rle_refl.
  - change (snd (nextp L z n 1 z)) with (add N (mul N (fst z) (mul N (snd z) (qn L n 1))) (mul N (snd z) (mul N (fst z) (qn L n 1)))). rewrite S2, Rabs_R0. apply Rle_refl.
Qed.
(** the series returns its argument *)
Lemma series_id fuel : (2 <= fuel)%nat -> exists v, Li_series N fuel n z = Val v /\ finc v /\ val v = val z.
Proof.
  intros Hf. destruct fuel as [|[|f]]; [lia|lia|]. destruct next_0 as [F1 P1]. destruct (int_v L 0 ltac:(lia)) as [F0 V0]. destruct Fz as [Fx Fy]. destruct Bz as [Bx By].
  assert (I64 : forall k, (0 <= k <= 10)%Z -> i64 k = Val k). { intros k Hk. unfold i64. replace (_ && _)%bool with true; [reflexivity|]. symmetry. apply andb_true_intro. split; apply Z.leb_le; unfold INT64_MIN, INT64_MAX; lia. }
  assert (Q : forall a b : bfl, is_finite a = true -> is_finite b = true -> Rabs (B2R a + B2R b) <= 2 -> generic_format radix2 bfexp (B2R a + B2R b) -> is_finite (add N a b) = true /\ B2R (add N a b) = B2R a + B2R b).
  { intros a b Fa Fb B G. destruct (add_b L a b Fa Fb) as [F V]; [apply big_2; lra|]. split; [exact F|]. rewrite V. apply rid, G. }
  assert (S1 : finc (cadd N (czero N) z) /\ val (cadd N (czero N) z) = val z).
  { destruct (Q (lit N 0 0) (fst z) F0 Fx) as [A1 A2]; [rewrite V0, Rplus_0_l; lra|rewrite V0, Rplus_0_l; apply generic_format_B2R|]. destruct (Q (lit N 0 0) (snd z) F0 Fy) as [B1 B2]; [rewrite V0, Rplus_0_l; lra|rewrite V0, Rplus_0_l; apply generic_format_B2R|].
    split; [split; assumption|]. unfold Cieee.val, cadd, czero. cbn [fst snd]. f_equal; (eapply eq_trans; [eassumption|]); rewrite V0; apply Rplus_0_l. }
  destruct S1 as [FS VS]. set (s1 := cadd N (czero N) z) in *. assert (Bs : Rabs (B2R (fst s1)) <= / 5 /\ Rabs (B2R (snd s1)) <= / 5).
  { assert (E1 : B2R (fst s1) = B2R (fst z)) by exact (f_equal fst VS). assert (E2 : B2R (snd s1) = B2R (snd z)) by exact (f_equal snd VS). rewrite E1, E2. split; assumption. }
  set (p1 := nextp L z n 1 z) in *.
  assert (ZB : forall b : bfl, Rabs (B2R b) <= 0 -> B2R b = 0) by (intros b H; destruct (Req_dec (B2R b) 0) as [E|E]; [exact E|pose proof (Rabs_pos_lt _ E); lra]).
  assert (S2 : finc (cadd N s1 p1) /\ val (cadd N s1 p1) = val z).
  { destruct FS as [G1 G2]. destruct F1 as [H1 H2]. destruct P1 as [P1 P2]. apply ZB in P1. apply ZB in P2.
    destruct (Q (fst s1) (fst p1) G1 H1) as [A1 A2]; [rewrite P1, Rplus_0_r; lra|rewrite P1, Rplus_0_r; apply generic_format_B2R|]. destruct (Q (snd s1) (snd p1) G2 H2) as [B1 B2]; [rewrite P2, Rplus_0_r; lra|rewrite P2, Rplus_0_r; apply generic_format_B2R|].
    split; [split; assumption|]. rewrite <- VS. unfold Cieee.val, cadd. cbn [fst snd]. f_equal; (eapply eq_trans; [eassumption|]); [rewrite P1|rewrite P2]; apply Rplus_0_r. }
  assert (HE : ceqb N (cadd N s1 p1) s1 = true) by (apply sum_stop; assumption).
  unfold Li_series. cbn [Li_series_loop]. rewrite (I64 (0 + 1)%Z) by lia. cbn [bind]. cbv zeta. change (0 + 1)%Z with 1%Z.
  change (cmul N z (cmul_cr N z (npow N (div N (ofZ N 1) (add N (lit N 1 0) (ofZ N 1))) (ofZ N n)))) with p1. fold s1.
  destruct (negb (Model_Li.is_finite N p1)); [exists s1; split; [reflexivity|split; assumption]|]. destruct (_ && _)%bool; [|exists s1; split; [reflexivity|split; assumption]].
  rewrite (I64 (1 + 1)%Z) by lia. cbn [bind]. cbv zeta. rewrite HE. cbn [negb andb]. exists (cadd N s1 p1). split; [destruct (negb _); reflexivity|exact S2].
Qed.
End S.
Lemma CLi_near (n : nat) (z : C) : (7 <= n)%nat -> Cmod z <= 3 / 10 -> Cmod (Cminus (CLi n z) z) <= Cmod z / 2 ^ n.
Proof.
  intros Hn Hz. pose proof (Cmod_ge_0 z) as Z0. pose proof (disc_tail n z 1 ltac:(lia) ltac:(lra)) as DT. pose proof (pow_lt 2 n ltac:(lra)) as P0.
  assert (T1 : Cmod (pterm n z 1) <= 3 / 10 * (Cmod z / 2 ^ n)).
  { rewrite pterm_mod. change (INR 2) with (1 + 1). replace (1 + 1) with 2 by ring. replace (3 / 10 * (Cmod z / 2 ^ n)) with (3 / 10 * Cmod z / 2 ^ n) by (field; lra). apply Rmult_le_compat_r; [left; apply Rinv_0_lt_compat, P0|]. cbn [pow]. rewrite Rmult_1_r. apply Rmult_le_compat_r; assumption. }
  assert (G : 0 <= Cmod z / (1 - Cmod z) <= 3 / 7) by (split; [apply Rdiv_le_0_compat; lra|apply Rle_div_l; lra]).
  assert (T0 : 0 <= Cmod (pterm n z 1)) by apply Cmod_ge_0. assert (TG : Cmod (pterm n z 1) * (Cmod z / (1 - Cmod z)) <= Cmod (pterm n z 1) * (3 / 7)) by (apply Rmult_le_compat_l; lra).
  assert (E : Csum (pterm n z) 2 = Cplus z (pterm n z 1)).
  { cbn [Csum]. replace (pterm n z 0) with z; [ring|]. unfold pterm. cbn [INR]. rewrite pow1. cbn [Cpow]. field. apply RtoC_neq. lra. }
  rewrite E in DT. assert (M0 : 0 <= Cmod z / 2 ^ n) by (apply Rdiv_le_0_compat; lra).
  replace (Cminus (CLi n z) z) with (Cplus (Cminus (CLi n z) (Cplus z (pterm n z 1))) (pterm n z 1)) by ring. eapply Rle_trans; [apply Cmod_triangle|]. lra.
Qed.
