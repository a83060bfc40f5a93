(** * The series of Li(n,z) on the real axis, 1/5 <= |Re z| <= 3/4, in double arithmetic: it stops *)
From Coq Require Import ZArith Reals Bool Lia Lra Psatz List.
From Coquelicot Require Import Coquelicot.
From Interval Require Import Tactic.
From Flocq Require Import Core Relative IEEE754.BinarySingleNaN.
From Verif Require Import Outcome Num NumR Spec NumB NumB_facts Proof_Float Libm Fcalc Cplx Ccalc CLi CLi_disc Li_gen Model_Li Ieee Li34_ieee CvsCpp Cieee CLi2_ieee CSeries_ieee CSeries2_ieee.
Import ListNotations.
Local Open Scope R_scope.
Local Notation is_finite := BinarySingleNaN.is_finite.

Section S.
Variable L : libm 53 1024.
Hypothesis HL : libm_ok (Hp := Hp53) (He := He53) L.
Notation N := (B64 L).
Notation bfl := (binary_float 53 1024).
Notation bfexp := (SpecFloat.fexp 53 1024).
Notation rnd := (round radix2 bfexp ZnearestE).
Notation bu := (Fcalc.u 53).
Variable n : Z.
Hypothesis Hn : (7 <= n <= INT64_MAX)%Z.

(** doubles above 2^-4 are multiples of 2^-56 *)
Lemma grid x : generic_format radix2 bfexp x -> / 16 <= Rabs x -> exists m, x = IZR m * bpow radix2 (-56).
Proof.
  intros G H. assert (G' : generic_format radix2 (FIX_exp (-56)) x).
  { apply (generic_inclusion_ge radix2 bfexp (FIX_exp (-56)) (-4)); [intros e He; unfold FIX_exp, SpecFloat.fexp, SpecFloat.emin; lia|change (bpow radix2 (-4)) with (/ 16); exact H|exact G]. }
  apply FIX_format_generic in G'. destruct G' as [[m e] E1 E2]. cbn in E2. exists m. rewrite E1, E2. reflexivity.
Qed.
(** a term below 2^-60 leaves a sum above 1/8 as it is *)
Lemma absorb s p : generic_format radix2 bfexp s -> / 8 <= Rabs s -> Rabs p <= bpow radix2 (-60) -> rnd (s + p) = s.
Proof.
  intros G Hs Hp. pose proof (round_N_pt radix2 bfexp (fun x => negb (Z.even x)) (s + p)) as [G2 NN]. specialize (NN s G). replace (s - (s + p)) with (- p) in NN by ring. rewrite Rabs_Ropp in NN.
  set (r := round radix2 bfexp (Znearest (fun x => negb (Z.even x))) (s + p)) in *. change (rnd (s + p)) with r. assert (B60 : bpow radix2 (-60) = / 16 * bpow radix2 (-56)) by (change (-60)%Z with (-4 + -56)%Z; rewrite bpow_plus; reflexivity).
  assert (B56 : 0 < bpow radix2 (-56) <= / 1000). { split; [apply bpow_gt_0|]. apply Rle_trans with (bpow radix2 (-10)); [apply bpow_le; lia|]. change (bpow radix2 (-10)) with (/ 1024). lra. }
  assert (D : Rabs (r - s) <= / 8 * bpow radix2 (-56)). { replace (r - s) with ((r - (s + p)) + p) by ring. eapply Rle_trans; [apply Rabs_triang|]. lra. }
  assert (Hr : / 16 <= Rabs r). { pose proof (Rabs_triang_inv s (s - r)) as T. replace (s - (s - r)) with r in T by ring. rewrite Rabs_minus_sym in D. lra. }
  destruct (grid s G ltac:(lra)) as [a Ea]. destruct (grid r G2 Hr) as [b Eb]. rewrite Ea, Eb in D |- *. replace (IZR b * bpow radix2 (-56) - IZR a * bpow radix2 (-56)) with (IZR (b - a) * bpow radix2 (-56)) in D by (rewrite minus_IZR; ring).
  rewrite Rabs_mult, (Rabs_pos_eq (bpow _ _)) in D by lra. apply Rmult_le_reg_r in D; [|lra]. rewrite <- abs_IZR in D. assert (K : (Z.abs (b - a) < 1)%Z) by (apply lt_IZR; lra). replace b with a by lia. reflexivity.
Qed.
(** the first factor *)
Lemma qn_1 : is_finite (qn L n 1) = true /\ Rabs (B2R (qn L n 1)) <= 91 / 10000.
Proof.
  pose proof w_pos as W. pose proof w_small as WS. destruct (q_arg L 1 ltac:(lia)) as (F & _ & Lo).
  assert (WW : w <= / 10 ^ 6) by (unfold w; apply Rle_trans with (bpow radix2 (-20)); [apply bpow_le; lia|change (bpow radix2 (-20)) with (/ 1048576); lra]).
  assert (Hi : B2R (div N (ofZ N 1) (add N (lit N 1 0) (ofZ N 1))) <= 51 / 100).
  { destruct (ofZ_v L 1 ltac:(lia)) as [F1 V1]. destruct (int_v L 1 ltac:(lia)) as [F2 V2]. assert (U : 0 < bu <= / 10 ^ 15) by exact u_b.
    destruct (add_b L (lit N 1 0) (ofZ N 1) F2 F1) as [F3 V3]. { apply big_1. rewrite V1, V2, Rabs_pos_eq by lra. lra. }
    rewrite V1, V2 in V3. rewrite <- plus_IZR in V3. change (1 + 1)%Z with 2%Z in V3. rewrite fmt_Z in V3 by lia.
    destruct (div_b L (ofZ N 1) (add N (lit N 1 0) (ofZ N 1)) F1) as [F4 V4]. { rewrite V3. lra. } { apply big_1. rewrite V1, V3, Rabs_pos_eq by lra. lra. }
    rewrite V4, V1, V3. pose proof (rerr (1 / 2)) as E. rewrite (Rabs_pos_eq (1 / 2)) in E by lra. apply Rabs_le_inv in E. lra. }
  set (x := div N (ofZ N 1) (add N (lit N 1 0) (ofZ N 1))) in *. assert (X0 : 0 < B2R x) by (change (IZR (1 + 1)) with 2 in Lo; lra).
  destruct (ofZ_n L n ltac:(lia)) as [Fn _]. assert (Vn : 7 <= B2R (ofZ N n)).
  { destruct (ofZ_correct 53 1024 Hp53 He53 ltac:(lia) n) as [E _]. { apply Z.le_trans with (2 ^ 63)%Z; [unfold INT64_MAX in Hn; lia|apply Z.pow_le_mono_r; lia]. }
    assert (E' : B2R (ofZ N n) = rnd (IZR n)) by exact E. rewrite E'. rewrite <- (fmt_Z 7) by lia. apply rmono. apply IZR_le. lia. }
  set (y := B2R (ofZ N n)) in *.
  assert (P : 0 < Rpower (B2R x) y <= 9 / 1000).
  { split; [apply exp_pos|]. apply Rle_trans with (Rpower (51 / 100) y); [apply Rle_Rpower_l; lra|]. apply Rle_trans with (Rpower (51 / 100) 7).
    - unfold Rpower. assert (LN : ln (51 / 100) < 0) by (rewrite <- ln_1; apply ln_increasing; lra). assert (A : y * ln (51 / 100) <= 7 * ln (51 / 100)) by (assert (0 <= (y - 7) * - ln (51 / 100)) by (apply Rmult_le_pos; lra); lra).
      destruct (Rle_lt_or_eq_dec _ _ A) as [G|G]; [left; apply exp_increasing, G|rewrite G; apply Rle_refl].
    - replace 7 with (INR 7) by (cbn; lra). rewrite Rpower_pow by lra. lra. }
  destruct (pow_acc _ _ _ _ L HL x (ofZ N n) F Fn X0) as [FR DR]. { eapply Rle_trans; [apply P|]. apply Rle_trans with 1; [lra|]. change 1 with (bpow radix2 0). apply bpow_le. lia. }
  change (m_pow 53 1024 L x (ofZ N n)) with (qn L n 1) in FR, DR. fold y in DR. rewrite (Rabs_pos_eq (Rpower _ _)) in DR by lra. set (v := Rpower (B2R x) y) in *. clearbody v.
  split; [exact FR|]. replace (B2R (qn L n 1)) with ((B2R (qn L n 1) - v) + v) by ring. eapply Rle_trans; [apply Rabs_triang|]. rewrite (Rabs_pos_eq v) by lra. eapply Rle_trans; [apply Rplus_le_compat_r, DR|].
  change (bpow radix2 (3 - 1024 - 53)) with w. assert (B1 : bpow radix2 (2 - 53) <= / 1024) by (change (/ 1024) with (bpow radix2 (-10)); apply bpow_le; lia).
  assert (bpow radix2 (2 - 53) * v <= / 1024 * v) by (apply Rmult_le_compat_r; lra). lra.
Qed.

Variable z : cpx N.
Hypothesis Fz : is_finite (fst z) = true /\ is_finite (snd z) = true.
Hypothesis Bz : / 5 <= Rabs (B2R (fst z)) <= 3 / 4.
Hypothesis Iz : B2R (snd z) = 0.
Notation x := (B2R (fst z)).
(** the term after pass k, and the sum before it *)
Definition tinv (p : cpx N) (M : R) : Prop := cfin L p /\ B2R (snd p) = 0 /\ Rabs (B2R (fst p)) <= M.
Definition sinv (s : cpx N) (d : R) : Prop := cfin L s /\ B2R (snd s) = 0 /\ Rabs (B2R (fst s) - x) <= d.
Lemma mul_0 (a b : bfl) : is_finite a = true -> is_finite b = true -> B2R a * B2R b = 0 -> is_finite (mul N a b) = true /\ B2R (mul N a b) = 0.
Proof. intros Fa Fb E. destruct (mul_b L a b Fa Fb) as [G V]; [apply big_2; rewrite E, Rabs_R0; lra|]. split; [exact G|]. rewrite V, E. apply round_0. apply valid_rnd_N. Qed.
Lemma rr (r : bfl) : rnd (B2R r) = B2R r. Proof. apply rid, generic_format_B2R. Qed.
(** one pass of the term: q bounds the factor pow(k/(1+k), n) *)
Lemma term_re k p M Q : (1 <= k <= 2 ^ 46)%Z -> tinv p M -> 0 <= Q <= 11 / 10 -> is_finite (qn L n k) = true -> Rabs (B2R (qn L n k)) <= Q -> M <= 1 -> tinv (nextp L z n k p) (7501 / 10000 * (Q * M) + 2 * w).
Proof.
  intros Hk ([F1 F2] & P0 & PM) HQ Fq Bq HM. destruct Fz as [Fx Fy]. pose proof w_pos as W. assert (WW : w <= / 10 ^ 6) by (unfold w; apply Rle_trans with (bpow radix2 (-20)); [apply bpow_le; lia|change (bpow radix2 (-20)) with (/ 1048576); lra]). assert (U : 0 < bu <= / 10 ^ 6) by (pose proof u_b as U; split; [apply U|]; eapply Rle_trans; [apply U|]; lra).
  set (q := qn L n k) in *. assert (M0 : 0 <= M) by (eapply Rle_trans; [apply Rabs_pos|exact PM]). assert (QM : 0 <= Q * M) by (apply Rmult_le_pos; lra).
  assert (A1 : Rabs (x * B2R q) <= 3 / 4 * Q) by (rewrite Rabs_mult; apply Rmult_le_compat; try apply Rabs_pos; [apply Bz|exact Bq]).
  destruct (mul_b L (fst z) q Fx Fq) as [G1 V1]; [apply big_2; lra|]. destruct (mul_0 (snd z) q Fy Fq) as [G2 V2]; [rewrite Iz; ring|].
  set (f := mul N (fst z) q) in *. set (g := mul N (snd z) q) in *.
  assert (Bf : Rabs (B2R f) <= 75001 / 100000 * Q + w / 2). { rewrite V1. eapply Rle_trans; [apply abs_err|]. assert (Rabs (x * B2R q) * bu <= 3 / 4 * Q * / 10 ^ 6) by (apply Rmult_le_compat; try apply Rabs_pos; lra). lra. }
  assert (A2 : Rabs (B2R (fst p) * B2R f) <= M * (75001 / 100000 * Q + w / 2)) by (rewrite Rabs_mult; apply Rmult_le_compat; try apply Rabs_pos; assumption).
  assert (MW : M * w <= w) by (rewrite <- (Rmult_1_l w) at 2; apply Rmult_le_compat_r; lra). replace (M * (75001 / 100000 * Q + w / 2)) with (75001 / 100000 * (Q * M) + (M * w) / 2) in A2 by field.
  assert (QM1 : Q * M <= 11 / 10 * 1) by (apply Rmult_le_compat; lra).
  destruct (mul_b L (fst p) f F1 G1) as [H1 W1]; [apply big_2; lra|]. destruct (mul_0 (snd p) g F2 G2) as [H2 W2]; [rewrite P0; ring|]. destruct (mul_0 (fst p) g F1 G2) as [H3 W3]; [rewrite V2; ring|]. destruct (mul_0 (snd p) f F2 G1) as [H4 W4]; [rewrite P0; ring|].
  assert (BA : Rabs (B2R (mul N (fst p) f)) <= 7501 / 10000 * (Q * M) + 2 * w).
  { rewrite W1. eapply Rle_trans; [apply abs_err|]. assert (Rabs (B2R (fst p) * B2R f) * bu <= (75001 / 100000 * (Q * M) + w) * / 10 ^ 6) by (apply Rmult_le_compat; try apply Rabs_pos; lra). lra. }
  destruct (sub_b L _ _ H1 H2) as [J1 K1]; [apply big_2; rewrite W2, Rminus_0_r; lra|]. destruct (add_b L _ _ H3 H4) as [J2 K2]; [apply big_2; rewrite W3, W4, Rplus_0_r, Rabs_R0; lra|].
  rewrite W2, Rminus_0_r, rr in K1. rewrite W3, W4, Rplus_0_r, round_0 in K2 by apply valid_rnd_N.
  split; [split; [exact J1|exact J2]|]. split; [exact K2|]. change (fst (nextp L z n k p)) with (sub N (mul N (fst p) f) (mul N (snd p) g)). rewrite K1. exact BA.
Qed.
Lemma sum_re s p d M : sinv s d -> tinv p M -> d <= / 20 -> M <= / 20 -> sinv (cadd N s p) (d + M + / 10 ^ 6).
Proof.
  intros ([F1 F2] & S0 & SD) ([G1 G2] & P0 & PM) Hd HM. pose proof w_pos as W. assert (WW : w <= / 10 ^ 8) by (unfold w; apply Rle_trans with (bpow radix2 (-30)); [apply bpow_le; lia|change (bpow radix2 (-30)) with (/ 1073741824); lra]). assert (U : 0 < bu <= / 10 ^ 8) by (pose proof u_b as U; split; [apply U|]; eapply Rle_trans; [apply U|]; lra).
  assert (T : Rabs (B2R (fst s) + B2R (fst p) - x) <= d + M). { replace (B2R (fst s) + B2R (fst p) - x) with ((B2R (fst s) - x) + B2R (fst p)) by ring. eapply Rle_trans; [apply Rabs_triang|]. lra. }
  assert (T1 : Rabs (B2R (fst s) + B2R (fst p)) <= 1). { replace (B2R (fst s) + B2R (fst p)) with ((B2R (fst s) + B2R (fst p) - x) + x) by ring. eapply Rle_trans; [apply Rabs_triang|]. destruct Bz. lra. }
  destruct (add_b L _ _ F1 G1) as [J1 K1]; [apply big_2; lra|]. destruct (add_b L _ _ F2 G2) as [J2 K2]; [apply big_2; rewrite S0, P0, Rplus_0_r, Rabs_R0; lra|]. rewrite S0, P0, Rplus_0_r, round_0 in K2 by apply valid_rnd_N.
  split; [split; [exact J1|exact J2]|]. split; [exact K2|]. change (fst (cadd N s p)) with (add N (fst s) (fst p)). rewrite K1. set (a := B2R (fst s) + B2R (fst p)) in *. replace (rnd a - x) with ((rnd a - a) + (a - x)) by ring. eapply Rle_trans; [apply Rabs_triang|]. pose proof (rerr a) as E.
  assert (bu * Rabs a <= / 10 ^ 8 * 1) by (apply Rmult_le_compat; try apply Rabs_pos; lra). lra.
Qed.
Lemma stop_re s p d M : sinv s d -> tinv p M -> d <= / 20 -> M <= bpow radix2 (-60) -> ceqb N (cadd N s p) s = true.
Proof.
  intros HS HP Hd HM. assert (M20 : bpow radix2 (-60) <= / 20) by (apply Rle_trans with (bpow radix2 (-5)); [apply bpow_le; lia|change (bpow radix2 (-5)) with (/ 32); lra]).
  destruct (sum_re s p d M HS HP Hd ltac:(lra)) as ([J1 J2] & S2 & _). destruct HS as ([F1 F2] & S0 & SD). destruct HP as ([G1 G2] & P0 & PM).
  assert (A : / 8 <= Rabs (B2R (fst s))). { pose proof (Rabs_triang_inv x (x - B2R (fst s))) as T. replace (x - (x - B2R (fst s))) with (B2R (fst s)) in T by ring. rewrite Rabs_minus_sym in SD. destruct Bz. lra. }
  assert (S1 : Rabs (B2R (fst s)) <= 1). { replace (B2R (fst s)) with ((B2R (fst s) - x) + x) by ring. eapply Rle_trans; [apply Rabs_triang|]. destruct Bz. lra. }
  destruct (add_b L _ _ F1 G1) as [_ K1]; [apply big_2; eapply Rle_trans; [apply Rabs_triang|]; lra|]. rewrite (absorb _ _ (generic_format_B2R 53 1024 (fst s)) A) in K1 by lra.
  unfold ceqb. rewrite (eqb_R L (fst (cadd N s p)) (fst s) J1 F1), (eqb_R L (snd (cadd N s p)) (snd s) J2 F2). change (fst (cadd N s p)) with (add N (fst s) (fst p)). rewrite K1, S2, S0, !Req_bool_true by reflexivity. reflexivity.
Qed.
Lemma i64_k k : (0 <= k <= 2 ^ 46)%Z -> i64 k = Val k.
Proof. intros H. unfold i64. replace (_ && _)%bool with true; [reflexivity|]. symmetry. apply andb_true_intro. split; apply Z.leb_le; unfold INT64_MIN, INT64_MAX; lia. Qed.
Lemma re_loop : forall m fuel k s p d M, (S m <= fuel)%nat -> (1 <= k)%Z -> (k + Z.of_nat (S m) <= 2 ^ 46)%Z -> sinv s d -> tinv p M -> 0 <= d -> d + 5 * M + INR (S m) / 10 ^ 6 <= / 20 -> (752 / 1000) ^ m * M <= bpow radix2 (-60) ->
  exists v, Li_series_loop N fuel n z k s p = Val v /\ sinv v (/ 20).
Proof.
  assert (W60 : w <= / 10 ^ 4 * bpow radix2 (-60)). { unfold w. apply Rle_trans with (bpow radix2 (-20 + -60)); [apply bpow_le; lia|]. rewrite bpow_plus. apply Rmult_le_compat_r; [apply bpow_ge_0|]. change (bpow radix2 (-20)) with (/ 1048576). lra. }
  assert (SI : forall v d, sinv v d -> d <= / 20 -> sinv v (/ 20)) by (intros v d (A & B & C) H; split; [exact A|]; split; [exact B|lra]).
  induction m as [|m IH]; intros fuel k s p d M Hf Hk Hk2 HS HP D0 HD HM; (destruct fuel as [|f]; [lia|]); assert (M0 : 0 <= M) by (eapply Rle_trans; [apply Rabs_pos|apply HP]).
  - rewrite pow_O, Rmult_1_l in HM. rewrite S_INR in HD. cbn [INR] in HD. pose proof (stop_re s p d M HS HP ltac:(lra) HM) as HE. pose proof (sum_re s p d M HS HP ltac:(lra) ltac:(lra)) as HS'.
    exists (cadd N s p). split; [|apply (SI _ _ HS'); lra]. cbn [Li_series_loop]. rewrite i64_k by lia. cbn [bind]. cbv zeta. rewrite HE. cbn [negb andb]. destruct (negb _); reflexivity.
  - rewrite S_INR in HD. pose proof (pos_INR (S m)) as IM. pose proof (sum_re s p d M HS HP ltac:(lra) ltac:(lra)) as HS'. cbn [Li_series_loop]. rewrite i64_k by lia. cbn [bind]. cbv zeta.
    change (cmul N p (cmul_cr N z (npow N (div N (ofZ N (k + 1)) (add N (lit N 1 0) (ofZ N (k + 1)))) (ofZ N n)))) with (nextp L z n (k + 1) p).
    destruct (negb (Model_Li.is_finite N (nextp L z n (k + 1) p))); [exists (cadd N s p); split; [reflexivity|apply (SI _ _ HS'); lra]|].
    destruct (Rle_lt_dec M (bpow radix2 (-60))) as [Sm|Bg].
    + rewrite (stop_re s p d M HS HP ltac:(lra) Sm). cbn [negb andb]. exists (cadd N s p). split; [reflexivity|apply (SI _ _ HS'); lra].
    + destruct (_ && _)%bool; [|exists (cadd N s p); split; [reflexivity|apply (SI _ _ HS'); lra]].
      destruct (qn_hi L HL n (k + 1) Hn ltac:(lia)) as [Fq Bq]. pose proof (term_re (k + 1) p M (1001 / 1000) ltac:(lia) HP ltac:(lra) Fq Bq ltac:(lra)) as HP'.
      apply (IH f (k + 1)%Z (cadd N s p) (nextp L z n (k + 1) p) (d + M + / 10 ^ 6) (752 / 1000 * M)); [lia|lia|lia|exact HS'| |lra|lra|].
      * destruct HP' as (A & B & C). split; [exact A|]. split; [exact B|]. lra.
      * rewrite <- Rmult_assoc. replace ((752 / 1000) ^ m * (752 / 1000)) with ((752 / 1000) ^ S m) by (cbn [pow]; ring). exact HM.
Qed.
Lemma pow_130 : (752 / 1000) ^ Z.to_nat 130 * (52 / 10000) <= bpow radix2 (-60).
Proof.
  rewrite <- (Rpower_pow (Z.to_nat 130)) by lra. rewrite INR_IZR_INZ, Z2Nat.id by lia. rewrite bpow_exp. change (IZR radix2) with 2.
  replace (52 / 10000) with (exp (ln (52 / 10000))) by (apply exp_ln; lra). unfold Rpower. rewrite <- exp_plus. left. apply exp_increasing. interval.
Qed.
Lemma series_re fuel : (Z.to_nat 132 <= fuel)%nat -> exists v, Li_series N fuel n z = Val v /\ sinv v (/ 20).
Proof.
  intros Hf. destruct fuel as [|f]; [lia|]. destruct (int_v L 0 ltac:(lia)) as [F0 V0]. destruct Fz as [Fx Fy]. pose proof w_pos as W. assert (WW : w <= / 10 ^ 6) by (unfold w; apply Rle_trans with (bpow radix2 (-20)); [apply bpow_le; lia|change (bpow radix2 (-20)) with (/ 1048576); lra]).
  assert (S1 : sinv (cadd N (czero N) z) 0).
  { destruct (add_b L (lit N 0 0) (fst z) F0 Fx) as [A1 A2]; [apply big_2; rewrite V0, Rplus_0_l; lra|]. destruct (add_b L (lit N 0 0) (snd z) F0 Fy) as [B1 B2]; [apply big_2; rewrite V0, Iz, Rplus_0_l, Rabs_R0; lra|].
    rewrite V0, Rplus_0_l, rr in A2. rewrite V0, Iz, Rplus_0_l, round_0 in B2 by apply valid_rnd_N. split; [split; [exact A1|exact B1]|]. split; [exact B2|].
    change (fst (cadd N (czero N) z)) with (add N (lit N 0 0) (fst z)). rewrite A2, Rminus_eq_0, Rabs_R0. apply Rle_refl. }
  assert (T1 : tinv (nextp L z n 1 z) (52 / 10000)).
  { destruct qn_1 as [Fq Bq]. pose proof (term_re 1 z (3 / 4) (91 / 10000) ltac:(lia)) as T. destruct T as (A & B & C); [split; [exact Fz|split; [exact Iz|apply Bz]]|lra|exact Fq|exact Bq|lra|]. split; [exact A|]. split; [exact B|]. lra. }
  assert (SI : sinv (cadd N (czero N) z) (/ 20)) by (destruct S1 as (A & B & C); split; [exact A|split; [exact B|lra]]).
  unfold Li_series. cbn [Li_series_loop]. rewrite i64_k by lia. cbn [bind]. cbv zeta. change (0 + 1)%Z with 1%Z.
  change (cmul N z (cmul_cr N z (npow N (div N (ofZ N 1) (add N (lit N 1 0) (ofZ N 1))) (ofZ N n)))) with (nextp L z n 1 z).
  destruct (negb _); [exists (cadd N (czero N) z); split; [reflexivity|exact SI]|]. destruct (_ && _)%bool; [|exists (cadd N (czero N) z); split; [reflexivity|exact SI]].
  apply (re_loop (Z.to_nat 130) f 1 _ _ 0 (52 / 10000)); [lia|lia|lia|exact S1|exact T1|lra| |exact pow_130].
  rewrite INR_IZR_INZ. replace (Z.of_nat (S (Z.to_nat 130))) with 131%Z by lia. lra.
Qed.
End S.
