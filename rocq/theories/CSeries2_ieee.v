(** * The series of Li(n,z) in the square |Re z|, |Im z| <= 1/5, in double arithmetic: the terms vanish *)
From Coq Require Import ZArith Reals Bool Lia Lra Psatz List.
From Coquelicot Require Import Coquelicot.
From Flocq Require Import Core Relative IEEE754.BinarySingleNaN.
From Verif Require Import Outcome Num NumR NumB NumB_facts Proof_Float Libm Fcalc Model_Li Ieee Li34_ieee CvsCpp CLi2_ieee CSeries_ieee.
Import ListNotations.
Local Open Scope R_scope.
Local Notation is_finite := BinarySingleNaN.is_finite.

Section S.
Variable L : libm 53 1024.
Hypothesis HL : libm_ok (Hp := Hp53) (He := He53) L.
Notation N := (B64 L).
Notation bfl := (binary_float 53 1024).
Notation bfexp := (SpecFloat.fexp 53 1024).
Notation rnd := (round radix2 bfexp ZnearestE).
Notation bu := (Fcalc.u 53).
Local Instance VE2 : Valid_exp bfexp := fexp_correct 53 1024 Hp53.

Lemma abs_rnd a b : generic_format radix2 bfexp b -> Rabs a <= b -> Rabs (rnd a) <= b.
Proof. intros G H. apply (abs_round_le_generic radix2 bfexp); [apply valid_rnd_N|exact G|exact H]. Qed.
Lemma abs_err r : Rabs (rnd r) <= Rabs r * (1 + bu) + w / 2.
Proof. pose proof (rerr r) as E. replace (rnd r) with ((rnd r - r) + r) by ring. eapply Rle_trans; [apply Rabs_triang|]. lra. Qed.
Lemma tiny0 (f : bfl) : Rabs (B2R f) < w -> B2R f = 0.
Proof.
  intros H. destruct (Req_dec (B2R f) 0) as [E|E]; [exact E|]. exfalso.
  assert (G : w <= Rabs (B2R f)). { apply (generic_format_ge_bpow radix2 bfexp (-1074)); [intros e; unfold SpecFloat.fexp, SpecFloat.emin; lia|apply Rabs_pos_lt, E|apply generic_format_abs, generic_format_B2R]. }
  lra.
Qed.
Lemma tiny0' (f : bfl) : Rabs (B2R f) < w -> Rabs (B2R f) <= 0.
Proof. intros H. rewrite (tiny0 f H), Rabs_R0. apply Rle_refl. Qed.
Lemma tiny_rnd r : Rabs r <= 499 / 1000 * w -> rnd r = 0.
Proof.
  intros H. pose proof w_pos as W. pose proof u_b as U. pose proof (abs_err r) as E. pose proof (Rabs_pos r) as R0.
  assert (Rabs r * bu <= Rabs r * / 10 ^ 15) by (apply Rmult_le_compat_l; lra). assert (B : Rabs (rnd r) < w) by lra.
  destruct (Req_dec (rnd r) 0) as [Z|Z]; [exact Z|]. exfalso.
  assert (G : w <= Rabs (rnd r)). { apply (generic_format_ge_bpow radix2 bfexp (-1074)); [intros e; unfold SpecFloat.fexp, SpecFloat.emin; lia|apply Rabs_pos_lt, Z|apply generic_format_abs, generic_format_round; [exact VE2|apply valid_rnd_N]]. }
  lra.
Qed.

(** the factor of one pass, any order *)
Definition qn (n k : Z) : N := npow N (div N (ofZ N k) (add N (lit N 1 0) (ofZ N k))) (ofZ N n).
Lemma ofZ_n n : (7 <= n <= INT64_MAX)%Z -> is_finite (ofZ N n) = true /\ 0 <= B2R (ofZ N n).
Proof.
  intros H. destruct (ofZ_correct 53 1024 Hp53 He53 ltac:(lia) n) as [E F]. { apply Z.le_trans with (2 ^ 63)%Z; [unfold INT64_MAX in H; lia|apply Z.pow_le_mono_r; lia]. }
  split; [exact F|]. assert (E' : B2R (ofZ N n) = rnd (IZR n)) by exact E. rewrite E'. apply rpos. apply IZR_le. lia.
Qed.
Lemma qn_hi n k : (7 <= n <= INT64_MAX)%Z -> (1 <= k <= 2 ^ 46)%Z -> is_finite (qn n k) = true /\ Rabs (B2R (qn n k)) <= 1001 / 1000.
Proof.
  intros Hn Hk. destruct (q_arg L k Hk) as (F & U1 & L1). set (x := div N (ofZ N k) (add N (lit N 1 0) (ofZ N k))) in *.
  assert (K1 : / 2 <= IZR k / IZR (k + 1)). { rewrite plus_IZR. assert (1 <= IZR k) by (apply IZR_le; lia). apply (Rmult_le_reg_r (IZR k + 1)); [lra|]. unfold Rdiv. rewrite Rmult_assoc, Rinv_l by lra. lra. }
  assert (X0 : 0 < B2R x) by lra. destruct (ofZ_n n Hn) as [F7 V7].
  assert (P1 : Rpower (B2R x) (B2R (ofZ N n)) <= 1).
  { unfold Rpower. rewrite <- exp_0. assert (LX : ln (B2R x) <= 0) by (rewrite <- ln_1; apply ln_le; lra). assert (B2R (ofZ N n) * ln (B2R x) <= 0) by (clear - V7 LX; nra). destruct (Rle_lt_or_eq_dec _ _ H) as [G|G]; [left; apply exp_increasing, G|right; rewrite G; reflexivity]. }
  assert (P0 : 0 < Rpower (B2R x) (B2R (ofZ N n))) by apply exp_pos.
  destruct (pow_acc _ _ _ _ L HL x (ofZ N n) F F7 X0) as [FR DR]. { eapply Rle_trans; [exact P1|]. change 1 with (bpow radix2 0). apply bpow_le. lia. }
  change (m_pow 53 1024 L x (ofZ N n)) with (qn n k) in FR, DR. rewrite (Rabs_pos_eq (Rpower _ _)) in DR by lra. set (v := Rpower (B2R x) (B2R (ofZ N n))) in *. clearbody v.
  split; [exact FR|]. replace (B2R (qn n k)) with ((B2R (qn n k) - v) + v) by ring. eapply Rle_trans; [apply Rabs_triang|]. rewrite (Rabs_pos_eq v) by lra. eapply Rle_trans; [apply Rplus_le_compat_r, DR|].
  assert (B1 : bpow radix2 (2 - 53) <= / 10000). { apply Rle_trans with (bpow radix2 (-14)); [apply bpow_le; lia|]. rewrite Fcalc.bp2. change (Pos.to_nat 14) with 14%nat. lra. }
  assert (B2 : bpow radix2 (3 - 1024 - 53) <= / 10000). { apply Rle_trans with (bpow radix2 (-14)); [apply bpow_le; lia|]. rewrite Fcalc.bp2. change (Pos.to_nat 14) with 14%nat. lra. }
  assert (bpow radix2 (2 - 53) * v <= / 10000 * 1) by (apply Rmult_le_compat; [apply bpow_ge_0|lra|exact B1|exact P1]). lra.
Qed.

Lemma w_small : w <= / 100000. Proof. pose proof w_yy. pose proof facts as (Y & _). pose proof w_pos. lra. Qed.
Lemma mul_lam (f : bfl) (n k : Z) : (7 <= n <= INT64_MAX)%Z -> (1 <= k <= 2 ^ 46)%Z -> is_finite f = true -> Rabs (B2R f) <= / 5 ->
  is_finite (mul N f (qn n k)) = true /\ Rabs (B2R (mul N f (qn n k))) <= 2004 / 10000.
Proof.
  intros Hn Hk F B. destruct (qn_hi n k Hn Hk) as [FQ BQ]. assert (P : Rabs (B2R f * B2R (qn n k)) <= 20021 / 100000) by (rewrite Rabs_mult; apply Rle_trans with (/ 5 * (1001 / 1000)); [apply Rmult_le_compat; [apply Rabs_pos|apply Rabs_pos|exact B|exact BQ]|lra]).
  destruct (mul_b L f (qn n k) F FQ) as [G V]; [apply big_2; lra|]. split; [exact G|]. rewrite V. eapply Rle_trans; [apply abs_err|]. pose proof w_small. pose proof w_pos. pose proof u_b as U. pose proof (Rabs_pos (B2R f * B2R (qn n k))) as R0.
  assert (Rabs (B2R f * B2R (qn n k)) * bu <= 1 * / 10 ^ 15) by (apply Rmult_le_compat; lra). lra.
Qed.

(** the size of the term shrinks by 81/100 in every pass *)
Lemma shrink (a b c e : bfl) M (sg : bool) : is_finite a = true -> is_finite b = true -> is_finite c = true -> is_finite e = true ->
  Rabs (B2R a) <= M -> Rabs (B2R b) <= M -> M <= 1 -> Rabs (B2R c) <= 2004 / 10000 -> Rabs (B2R e) <= 2004 / 10000 ->
  let r := if sg then sub N (mul N a c) (mul N b e) else add N (mul N a c) (mul N b e) in
  is_finite r = true /\ Rabs (B2R r) <= 81 / 100 * M.
Proof.
  intros Fa Fb Fc Fe Ha Hb HM Hc He r. pose proof w_pos as W. pose proof w_small as WS. assert (U : 0 < bu <= / 10000) by (pose proof u_b; lra). pose proof (Rabs_pos (B2R a)) as A0.
  assert (P1 : Rabs (B2R a * B2R c) <= 2004 / 10000 * M) by (rewrite Rabs_mult, (Rmult_comm _ M); apply Rmult_le_compat; try assumption; apply Rabs_pos).
  assert (P2 : Rabs (B2R b * B2R e) <= 2004 / 10000 * M) by (rewrite Rabs_mult, (Rmult_comm _ M); apply Rmult_le_compat; try assumption; apply Rabs_pos).
  destruct (mul_b L a c Fa Fc) as [F1 V1]; [apply big_2; lra|]. destruct (mul_b L b e Fb Fe) as [F2 V2]; [apply big_2; lra|].
  set (x := mul N a c) in *. set (y := mul N b e) in *.
  assert (E1 : Rabs (B2R x) <= 201 / 1000 * M + w / 2). { rewrite V1. eapply Rle_trans; [apply abs_err|]. pose proof (Rabs_pos (B2R a * B2R c)). assert (Rabs (B2R a * B2R c) * bu <= (2004 / 10000 * M) * / 10000) by (apply Rmult_le_compat; lra). lra. }
  assert (E2 : Rabs (B2R y) <= 201 / 1000 * M + w / 2). { rewrite V2. eapply Rle_trans; [apply abs_err|]. pose proof (Rabs_pos (B2R b * B2R e)). assert (Rabs (B2R b * B2R e) * bu <= (2004 / 10000 * M) * / 10000) by (apply Rmult_le_compat; lra). lra. }
  assert (R : is_finite r = true /\ exists t, B2R r = rnd t /\ Rabs t <= Rabs (B2R x) + Rabs (B2R y)).
  { unfold r. destruct sg.
    - assert (T : Rabs (B2R x - B2R y) <= Rabs (B2R x) + Rabs (B2R y)) by (unfold Rminus; eapply Rle_trans; [apply Rabs_triang|]; rewrite Rabs_Ropp; lra).
      destruct (sub_b L x y F1 F2) as [G V]; [apply big_2; lra|]. split; [exact G|]. exists (B2R x - B2R y). split; [exact V|exact T].
    - assert (T : Rabs (B2R x + B2R y) <= Rabs (B2R x) + Rabs (B2R y)) by apply Rabs_triang.
      destruct (add_b L x y F1 F2) as [G V]; [apply big_2; lra|]. split; [exact G|]. exists (B2R x + B2R y). split; [exact V|exact T]. }
  destruct R as [FR (t & Vt & Bt)]. split; [exact FR|]. rewrite Vt. destruct (Rle_lt_dec M (249 / 100 * w)) as [C1|C1]; [|destruct (Rle_lt_dec M (4 * w)) as [C2|C2]].
  - rewrite (tiny_rnd (B2R a * B2R c)) in V1 by lra. rewrite (tiny_rnd (B2R b * B2R e)) in V2 by lra. rewrite V1, V2, Rabs_R0 in Bt. rewrite (tiny_rnd t) by lra. rewrite Rabs_R0. lra.
  - assert (X1 : Rabs (B2R x) <= w) by (rewrite V1; apply abs_rnd; [apply (fmt_b (-1074)); lia|lra]). assert (X2 : Rabs (B2R y) <= w) by (rewrite V2; apply abs_rnd; [apply (fmt_b (-1074)); lia|lra]).
    apply Rle_trans with (bpow radix2 (1 + -1074)); [|rewrite bpow_plus; fold w; change (bpow radix2 1) with 2; lra]. apply abs_rnd; [apply fmt_b; lia|]. rewrite bpow_plus; fold w; change (bpow radix2 1) with 2; lra.
  - eapply Rle_trans; [apply abs_err|]. pose proof (Rabs_pos t). assert (Rabs t * bu <= (402 / 1000 * M + w) * / 10000) by (apply Rmult_le_compat; lra). lra.
Qed.

Variable z : cpx N.
Hypothesis Fz : is_finite (fst z) = true /\ is_finite (snd z) = true.
Hypothesis Bz : Rabs (B2R (fst z)) <= / 5 /\ Rabs (B2R (snd z)) <= / 5.
Variable n : Z.
Hypothesis Hn : (7 <= n <= INT64_MAX)%Z.
Definition cfin (c : cpx N) : Prop := is_finite (fst c) = true /\ is_finite (snd c) = true.
Definition cle (c : cpx N) (M : R) : Prop := Rabs (B2R (fst c)) <= M /\ Rabs (B2R (snd c)) <= M.
Definition nextp (k : Z) (p : cpx N) : cpx N := cmul N p (cmul_cr N z (qn n k)).
Lemma next_ok k p M : (1 <= k <= 2 ^ 46)%Z -> cfin p -> cle p M -> M <= 1 -> cfin (nextp k p) /\ cle (nextp k p) (81 / 100 * M).
Proof.
  intros Hk [F1 F2] [B1 B2] HM. destruct Fz as [Fx Fy]. destruct Bz as [Bx By]. destruct (mul_lam (fst z) n k Hn Hk Fx Bx) as [G1 C1]. destruct (mul_lam (snd z) n k Hn Hk Fy By) as [G2 C2].
  destruct (shrink (fst p) (snd p) _ _ M true F1 F2 G1 G2 B1 B2 HM C1 C2) as [R1 S1]. destruct (shrink (fst p) (snd p) _ _ M false F1 F2 G2 G1 B1 B2 HM C2 C1) as [R2 S2].
  split; split; assumption.
Qed.
Lemma sum_ok k s p : (0 <= k < 2 ^ 46)%Z -> cfin s -> cle s (IZR k) -> cfin p -> cle p 1 -> cfin (cadd N s p) /\ cle (cadd N s p) (IZR (k + 1)).
Proof.
  intros Hk [F1 F2] [B1 B2] [G1 G2] [C1 C2]. assert (K2 : IZR k <= 2 ^ 46) by (replace (2 ^ 46) with (IZR (2 ^ 46)) by (cbn; lra); apply IZR_le; lia).
  assert (Q : forall a b : bfl, is_finite a = true -> is_finite b = true -> Rabs (B2R a) <= IZR k -> Rabs (B2R b) <= 1 -> is_finite (add N a b) = true /\ Rabs (B2R (add N a b)) <= IZR (k + 1)).
  { intros a b Fa Fb Ba Bb. assert (T : Rabs (B2R a + B2R b) <= IZR (k + 1)) by (rewrite plus_IZR; eapply Rle_trans; [apply Rabs_triang|lra]).
    destruct (add_b L a b Fa Fb) as [F V]; [apply big_1; rewrite plus_IZR in T; lra|]. split; [exact F|]. rewrite V. apply abs_rnd; [|exact T]. apply (format_IZR 53 1024 Hp53 He53 ltac:(lia)). lia. }
  destruct (Q _ _ F1 G1 B1 C1) as [Q1 Q2]. destruct (Q _ _ F2 G2 B2 C2) as [Q3 Q4]. split; split; assumption.
Qed.
(** a vanished term leaves the sum as it is *)
Lemma sum_stop s p : cfin s -> cfin p -> cle p 0 -> ceqb N (cadd N s p) s = true.
Proof.
  intros [F1 F2] [G1 G2] [C1 C2].
  assert (Q : forall (a b : bfl), is_finite a = true -> is_finite b = true -> Rabs (B2R b) <= 0 -> eqb N (add N a b) a = true).
  { intros a b Fa Fb Bb. assert (B0 : B2R b = 0) by (pose proof (Rabs_pos (B2R b)); destruct (Req_dec (B2R b) 0) as [E|E]; [exact E|pose proof (Rabs_pos_lt _ E); lra]).
    assert (V' : rnd (B2R a + B2R b) = B2R a) by (rewrite B0, Rplus_0_r; apply rid, generic_format_B2R).
    pose proof (Bplus_correct 53 1024 Hp53 He53 mode_NE a b Fa Fb) as K. cbn [round_mode] in K. rewrite V' in K. rewrite Rlt_bool_true in K by apply abs_B2R_lt_emax. destruct K as (P & Q & _).
    change (add N a b) with (Bplus (prec_gt_0_ := Hp53) (prec_lt_emax_ := He53) mode_NE a b). rewrite (eqb_R L) by assumption. rewrite P. apply Req_bool_true. reflexivity. }
  unfold ceqb, cadd. cbn [fst snd]. rewrite (Q _ _ F1 G1 C1), (Q _ _ F2 G2 C2). reflexivity.
Qed.
Lemma stops : forall m fuel k s p M, (S m <= fuel)%nat -> (0 <= k)%Z -> (k + Z.of_nat (S m) <= 2 ^ 46)%Z -> cfin s -> cle s (IZR k) -> cfin p -> cle p M -> M <= 1 -> (81 / 100) ^ m * M < w ->
  exists v, Li_series_loop N fuel n z k s p = Val v /\ cfin v.
Proof.
  induction m as [|m IH]; intros fuel k s p M Hf K0 K1 Fs Bs Fp Bp HM Hm.
  - destruct fuel as [|f]; [lia|]. rewrite pow_O, Rmult_1_l in Hm.
    assert (P0 : cle p 0). { destruct Bp as [b1 b2]. split; apply tiny0'; eapply Rle_lt_trans; [exact b1|exact Hm|exact b2|exact Hm]. }
    destruct (next_ok (k + 1) p M ltac:(lia) Fp Bp HM) as [Fn _]. destruct (sum_ok k s p ltac:(lia) Fs Bs Fp) as [Fs' _]. { split; eapply Rle_trans; try apply P0; lra. }
    exists (cadd N s p). split; [|exact Fs']. cbn [Li_series_loop]. replace (i64 (k + 1)) with (Val (k + 1)%Z). 2:{ unfold i64. replace (_ && _)%bool with true; [reflexivity|]. symmetry. apply andb_true_intro. split; apply Z.leb_le; unfold INT64_MIN, INT64_MAX; lia. }
    cbn [bind]. cbv zeta. rewrite (sum_stop s p Fs Fp P0). cbn [negb andb]. destruct (negb _); reflexivity.
  - destruct fuel as [|f]; [lia|].
    destruct (next_ok (k + 1) p M ltac:(lia) Fp Bp HM) as [Fn Bn]. assert (M0 : 0 <= M) by (eapply Rle_trans; [apply Rabs_pos|apply Bp]).
    destruct (sum_ok k s p ltac:(lia) Fs Bs Fp) as [Fs' Bs']. { destruct Bp. split; lra. }
    cbn [Li_series_loop]. replace (i64 (k + 1)) with (Val (k + 1)%Z). 2:{ unfold i64. replace (_ && _)%bool with true; [reflexivity|]. symmetry. apply andb_true_intro. split; apply Z.leb_le; unfold INT64_MIN, INT64_MAX; lia. }
    cbn [bind]. cbv zeta. destruct (negb (Model_Li.is_finite _ _)); [exists (cadd N s p); split; [reflexivity|exact Fs']|]. destruct (_ && _)%bool; [|exists (cadd N s p); split; [reflexivity|exact Fs']].
    apply (IH f (k + 1)%Z (cadd N s p) (nextp (k + 1) p) (81 / 100 * M)); try assumption; try lia; try lra. rewrite <- Rmult_assoc. replace ((81 / 100) ^ m * (81 / 100)) with ((81 / 100) ^ S m) by (cbn [pow]; ring). exact Hm.
Qed.
End S.
