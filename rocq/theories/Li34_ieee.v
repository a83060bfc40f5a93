(** * Real Li3 and Li4 in IEEE double: a calculus of errors relative to a magnitude, and the rational cores *)
From Coq Require Import ZArith Reals Bool Lia Lra Psatz List.
From Coquelicot Require Import Coquelicot.
From Interval Require Import Tactic.
From Flocq Require Import Core Relative Sterbenz Mult_error IEEE754.BinarySingleNaN.
From Verif Require Import Num NumR Eval_R NumB NumB_facts Proof_Float Libm Ferr FerrB Fcalc Polylog Polylog_eqs Fourier Consts Cl_pieces Model_LiR Ieee Li2_ieee.
Import ListNotations.
Local Open Scope R_scope.

Notation fl := (binary_float 53 1024).
Notation fexp := (SpecFloat.fexp 53 1024).
Notation rnd := (round radix2 fexp ZnearestE).
Notation u := (u 53).
Notation eta := (eta 53 1024).
Notation A := (A 53 1024).
Definition Vlo : R := bpow radix2 (-400).
Definition Vhi : R := bpow radix2 100.

Lemma u_val : u = / 2 ^ 53.
Proof. unfold Fcalc.u. change (- (53))%Z with (Zneg 53). rewrite bp2. reflexivity. Qed.
Lemma u_b : 0 < u <= / 10 ^ 15. Proof. rewrite u_val. split; lra. Qed.
Lemma Vlo_pos : 0 < Vlo. Proof. apply bpow_gt_0. Qed.
Lemma Vhi_pos : 0 < Vhi. Proof. apply bpow_gt_0. Qed.
Lemma eta_lo : 0 < eta <= u * Vlo / 1000.
Proof.
  split; [apply bpow_gt_0|]. apply Rle_trans with (u * Vlo / 1024).
  - unfold Vlo, Fcalc.u, Fcalc.eta, Rdiv. change 1024 with (bpow radix2 10). rewrite <- bpow_opp, <- !bpow_plus. apply bpow_le. lia.
  - unfold Rdiv. apply Rmult_le_compat_l; [apply Rmult_le_pos; [apply Rlt_le, u_b|apply Rlt_le, Vlo_pos]|lra].
Qed.
Lemma Vhi_big : 4 * Vhi <= BIG 1024.
Proof. unfold Vhi, BIG. change 4 with (bpow radix2 2). rewrite <- bpow_plus. apply bpow_le. lia. Qed.
Lemma Vlo_u4 : Vlo <= u * u * u * u / 10 ^ 9.
Proof.
  apply Rle_trans with (u * u * u * u * bpow radix2 (-30)).
  - unfold Vlo, Fcalc.u. rewrite <- !bpow_plus. apply bpow_le. lia.
  - unfold Rdiv. pose proof u_b. apply Rmult_le_compat_l; [repeat apply Rmult_le_pos; lra|]. rewrite bp2. change (Pos.to_nat 30) with 30%nat. lra.
Qed.
Lemma Vhi_ge : 10 ^ 30 <= Vhi. Proof. unfold Vhi. rewrite bpow_powerRZ. change (powerRZ (IZR radix2) 100) with (2 ^ 100). lra. Qed.
Lemma Vlo_le : Vlo <= / 10 ^ 60.
Proof.
  eapply Rle_trans; [apply Vlo_u4|]. pose proof u_b as U. assert (u * u <= / 10 ^ 15 * / 10 ^ 15) by (apply Rmult_le_compat; lra). assert (0 <= u * u) by (apply Rmult_le_pos; lra).
  assert (u * u * u * u <= (/ 10 ^ 15 * / 10 ^ 15) * (/ 10 ^ 15 * / 10 ^ 15)). { replace (u * u * u * u) with ((u * u) * (u * u)) by ring. apply Rmult_le_compat; lra. }
  unfold Rdiv. lra.
Qed.

Section C.
Variable L : libm 53 1024.
Hypothesis HL : libm_ok (Hp := Hp53) (He := He53) L.
Notation N := (B64 L).
Local Notation NN := (NumB 53 1024 Hp53 He53 L).

(** f is within c u V of a, and |a| <= V *)
Definition E (f : fl) (a V c : R) : Prop := is_finite f = true /\ Rabs (B2R f - a) <= c * u * V /\ Rabs a <= V /\ Vlo <= V <= Vhi /\ 0 <= c <= 10 ^ 6.
Lemma E_A f a e V c : A f a e -> Rabs a <= V -> e <= c * u * V -> Vlo <= V <= Vhi -> 0 <= c <= 10 ^ 6 -> E f a V c.
Proof. intros [F D] H1 H2 H3 H4. split; [exact F|]. split; [lra|]. split; [exact H1|]. split; assumption. Qed.
Lemma A_E f a V c : E f a V c -> A f a (c * u * V).
Proof. intros (F & D & _). split; assumption. Qed.
Lemma E_weak f a V c V' c' : E f a V c -> V <= V' <= Vhi -> c <= c' <= 10 ^ 6 -> E f a V' c'.
Proof.
  intros (F & D & B & R & C) H1 H2. pose proof u_b as U. pose proof Vlo_pos. split; [exact F|]. split; [|split; [lra|split; [lra|lra]]].
  eapply Rle_trans; [exact D|]. apply Rmult_le_compat; [apply Rmult_le_pos; lra|lra|apply Rmult_le_compat_r; lra|lra].
Qed.
Lemma E_val f a a' V c : E f a V c -> a = a' -> E f a' V c. Proof. intros H <-. exact H. Qed.
Lemma E_opp f a V c : E f a V c -> E (opp N f) (- a) V c.
Proof.
  intros (F & D & B & R & C). destruct (A_opp 53 1024 Hp53 He53 L f a _ (conj F D)) as [F' D']. split; [exact F'|]. split; [exact D'|]. rewrite Rabs_Ropp. split; [exact B|]. split; assumption.
Qed.
Lemma E_mul f g a b V W c d : E f a V c -> E g b W d -> Vlo <= V * W <= Vhi -> c + d + 1.1 <= 10 ^ 6 -> E (mul N f g) (a * b) (V * W) (c + d + 1.1).
Proof.
  intros (Ff & Df & Bf & Rf & Cf) (Fg & Dg & Bg & Rg & Cg) HZ HC. pose proof u_b as U. pose proof Vlo_pos as V0. pose proof eta_lo as ET. pose proof Vhi_big as VB.
  assert (QV : 0 <= u * V) by (apply Rmult_le_pos; lra). assert (QW : 0 <= u * W) by (apply Rmult_le_pos; lra).
  set (Z := V * W) in *. assert (uZ : 0 <= u * Z) by (apply Rmult_le_pos; lra). assert (uZs : u * Z <= / 10 ^ 15 * Z) by (apply Rmult_le_compat_r; lra).
  assert (e12 : c * u * V * (d * u * W) <= / 1000 * (u * Z)).
  { replace (c * u * V * (d * u * W)) with (c * d * u * (u * Z)) by (unfold Z; ring). apply Rmult_le_compat_r; [exact uZ|]. assert (c * d <= 10 ^ 6 * 10 ^ 6) by (apply Rmult_le_compat; lra). assert (0 <= c * d) by (apply Rmult_le_pos; lra).
    assert (c * d * u <= 10 ^ 6 * 10 ^ 6 * / 10 ^ 15) by (apply Rmult_le_compat; lra). lra. }
  assert (e12' : 0 <= c * u * V * (d * u * W)) by (apply Rmult_le_pos; (rewrite Rmult_assoc; apply Rmult_le_pos; lra)).
  assert (e1 : V * (d * u * W) = d * (u * Z)) by (unfold Z; ring). assert (e2 : W * (c * u * V) = c * (u * Z)) by (unfold Z; ring).
  assert (dz : 0 <= d * (u * Z) <= 10 ^ 6 * (u * Z)) by (split; [apply Rmult_le_pos; lra|apply Rmult_le_compat_r; lra]). assert (cz : 0 <= c * (u * Z) <= 10 ^ 6 * (u * Z)) by (split; [apply Rmult_le_pos; lra|apply Rmult_le_compat_r; lra]).
  destruct (A_mul 53 1024 Hp53 He53 ltac:(lia) ltac:(lia) ltac:(lia) L f g a b _ _ V W (1.01 * Z) (conj Ff Df) (conj Fg Dg) Bf Bg) as [F D].
  - fold Z. rewrite e1, e2. lra.
  - lra.
  - split; [exact F|]. split; [|split; [rewrite Rabs_mult; apply Rmult_le_compat; auto using Rabs_pos|split; [exact HZ|lra]]]. eapply Rle_trans; [exact D|]. rewrite e1, e2.
    assert (u * Vlo <= u * Z) by (apply Rmult_le_compat_l; lra). lra.
Qed.
Lemma E_add f g a b V W c d m : E f a V c -> E g b W d -> V + W <= Vhi -> c <= m -> d <= m -> m + 1.1 <= 10 ^ 6 -> E (add N f g) (a + b) (V + W) (m + 1.1).
Proof.
  intros (Ff & Df & Bf & Rf & Cf) (Fg & Dg & Bg & Rg & Cg) HZ C1 C2 HC. pose proof u_b as U. pose proof Vlo_pos as V0. pose proof eta_lo as ET. pose proof Vhi_big as VB.
  assert (QV : 0 <= u * V) by (apply Rmult_le_pos; lra). assert (QW : 0 <= u * W) by (apply Rmult_le_pos; lra).
  assert (D1 : c * u * V <= m * (u * V)) by (rewrite Rmult_assoc; apply Rmult_le_compat_r; lra). assert (D2 : d * u * W <= m * (u * W)) by (rewrite Rmult_assoc; apply Rmult_le_compat_r; lra).
  assert (D3 : m * (u * V) <= 10 ^ 6 * (u * V)) by (apply Rmult_le_compat_r; lra). assert (D4 : m * (u * W) <= 10 ^ 6 * (u * W)) by (apply Rmult_le_compat_r; lra).
  assert (uVs : u * V <= / 10 ^ 15 * V) by (apply Rmult_le_compat_r; lra). assert (uWs : u * W <= / 10 ^ 15 * W) by (apply Rmult_le_compat_r; lra).
  pose proof (Rabs_triang a b) as TR.
  destruct (A_add 53 1024 Hp53 He53 ltac:(lia) ltac:(lia) ltac:(lia) L f g a b _ _ (1.01 * (V + W)) (conj Ff Df) (conj Fg Dg)) as [F D]; [lra|lra|].
  split; [exact F|]. split; [|split; [lra|split; [lra|lra]]]. eapply Rle_trans; [exact D|]. assert (u * Vlo <= u * V) by (apply Rmult_le_compat_l; lra). replace ((m + 1.1) * u * (V + W)) with (m * (u * V) + m * (u * W) + 1.1 * (u * V) + 1.1 * (u * W)) by ring. lra.
Qed.
Lemma E_sub f g a b V W c d m : E f a V c -> E g b W d -> V + W <= Vhi -> c <= m -> d <= m -> m + 1.1 <= 10 ^ 6 -> E (sub N f g) (a - b) (V + W) (m + 1.1).
Proof.
  intros (Ff & Df & Bf & Rf & Cf) (Fg & Dg & Bg & Rg & Cg) HZ C1 C2 HC. pose proof u_b as U. pose proof Vlo_pos as V0. pose proof eta_lo as ET. pose proof Vhi_big as VB.
  assert (QV : 0 <= u * V) by (apply Rmult_le_pos; lra). assert (QW : 0 <= u * W) by (apply Rmult_le_pos; lra).
  assert (D1 : c * u * V <= m * (u * V)) by (rewrite Rmult_assoc; apply Rmult_le_compat_r; lra). assert (D2 : d * u * W <= m * (u * W)) by (rewrite Rmult_assoc; apply Rmult_le_compat_r; lra).
  assert (D3 : m * (u * V) <= 10 ^ 6 * (u * V)) by (apply Rmult_le_compat_r; lra). assert (D4 : m * (u * W) <= 10 ^ 6 * (u * W)) by (apply Rmult_le_compat_r; lra).
  assert (uVs : u * V <= / 10 ^ 15 * V) by (apply Rmult_le_compat_r; lra). assert (uWs : u * W <= / 10 ^ 15 * W) by (apply Rmult_le_compat_r; lra).
  pose proof (Rabs_triang a (- b)) as TR. rewrite Rabs_Ropp in TR. change (a + - b) with (a - b) in TR.
  destruct (A_sub 53 1024 Hp53 He53 ltac:(lia) ltac:(lia) ltac:(lia) L f g a b _ _ (1.01 * (V + W)) (conj Ff Df) (conj Fg Dg)) as [F D]; [lra|lra|].
  split; [exact F|]. split; [|split; [lra|split; [lra|lra]]]. eapply Rle_trans; [exact D|]. assert (u * Vlo <= u * V) by (apply Rmult_le_compat_l; lra). replace ((m + 1.1) * u * (V + W)) with (m * (u * V) + m * (u * W) + 1.1 * (u * V) + 1.1 * (u * W)) by ring. lra.
Qed.
(** exact constants, quotients of integers, decimal constants *)
Lemma E_int z : (1 <= Z.abs z <= 10 ^ 9)%Z -> E (lit N z 0) (IZR z) (Rabs (IZR z)) 0.
Proof.
  intros H. destruct (A_int 53 1024 Hp53 He53 ltac:(lia) L z ltac:(lia)) as [F D]. split; [exact F|]. split; [rewrite !Rmult_0_l; exact D|]. split; [apply Rle_refl|].
  assert (1 <= Rabs (IZR z) <= 10 ^ 9) by (rewrite <- abs_IZR; split; [apply (IZR_le 1); lia|replace (10 ^ 9) with (IZR (10 ^ 9)) by exact (eq_sym (pow_IZR 10 9)); apply IZR_le; lia]).
  pose proof Vlo_le. pose proof Vhi_ge. split; [|lra]. lra.
Qed.
Lemma E_quot p q : (1 <= Z.abs p <= 10 ^ 9)%Z -> (1 <= q <= 10 ^ 9)%Z -> E (div N (lit N p 0) (lit N q 0)) (IZR p / IZR q) (Rabs (IZR p) / IZR q) 1.1.
Proof.
  intros H1 H2. destruct (A_int 53 1024 Hp53 He53 ltac:(lia) L p ltac:(lia)) as [Fp Dp]. destruct (A_int 53 1024 Hp53 He53 ltac:(lia) L q ltac:(lia)) as [Fq Dq].
  assert (P : 1 <= Rabs (IZR p) <= 10 ^ 9) by (rewrite <- abs_IZR; split; [apply (IZR_le 1); lia|replace (10 ^ 9) with (IZR (10 ^ 9)) by exact (eq_sym (pow_IZR 10 9)); apply IZR_le; lia]).
  assert (Q : 1 <= IZR q <= 10 ^ 9) by (split; [apply (IZR_le 1); lia|replace (10 ^ 9) with (IZR (10 ^ 9)) by exact (eq_sym (pow_IZR 10 9)); apply IZR_le; lia]).
  assert (VP : B2R (lit N p 0) = IZR p) by (apply Rabs_le_between in Dp; change (lit NN p 0) with (lit N p 0) in Dp; lra). assert (VQ : B2R (lit N q 0) = IZR q) by (apply Rabs_le_between in Dq; change (lit NN q 0) with (lit N q 0) in Dq; lra).
  assert (IQ : / 10 ^ 9 <= / IZR q <= 1) by (split; [apply Rinv_le_contravar; lra|rewrite <- Rinv_1; apply Rinv_le_contravar; lra]).
  assert (Z : / 10 ^ 9 <= Rabs (IZR p) / IZR q <= 10 ^ 9). { unfold Rdiv. split; [apply Rle_trans with (1 * / 10 ^ 9); [lra|apply Rmult_le_compat; lra]|apply Rle_trans with (10 ^ 9 * 1); [apply Rmult_le_compat; lra|lra]]. }
  assert (AB : Rabs (IZR p / IZR q) = Rabs (IZR p) / IZR q) by (unfold Rdiv; rewrite Rabs_mult, (Rabs_pos_eq (/ IZR q)) by lra; reflexivity).
  pose proof Vlo_le as VL. pose proof Vhi_ge as VH. pose proof Vhi_big as VB. pose proof u_b as U. pose proof eta_lo as ET.
  destruct (div_r 53 1024 Hp53 He53 ltac:(lia) ltac:(lia) ltac:(lia) L _ _ Fp ltac:(change (lit NN q 0) with (lit N q 0); rewrite VQ; lra)) as [F D].
  { change (lit NN p 0) with (lit N p 0). change (lit NN q 0) with (lit N q 0). rewrite VP, VQ, AB. lra. }
  change (lit NN p 0) with (lit N p 0) in D. change (lit NN q 0) with (lit N q 0) in D. rewrite VP, VQ in D.
  split; [exact F|]. split; [|split; [lra|split; [lra|lra]]]. pose proof (rnd_err 53 1024 Hp53 (IZR p / IZR q)) as R. fold u eta in R. rewrite <- D, AB in R. eapply Rle_trans; [exact R|].
  assert (u * Vlo <= u * (Rabs (IZR p) / IZR q)) by (apply Rmult_le_compat_l; lra). lra.
Qed.
Lemma E_lit m e v V : Rabs (litR m e - v) <= 5 / 10 ^ 17 * V -> Rabs v <= V -> / 10 ^ 9 <= V <= 10 ^ 9 -> E (lit N m e) v V 1.6.
Proof.
  intros H1 H2 H3. pose proof Vlo_le as VL. pose proof Vhi_ge as VH. pose proof u_b as U. pose proof eta_lo as ET.
  assert (HB : Rabs (litR m e) <= 1.01 * V). { replace (litR m e) with ((litR m e - v) + v) by ring. eapply Rle_trans; [apply Rabs_triang|]. lra. }
  destruct (lit_okf L m e) as [F D]; [pose proof big64_ge as BG; assert (10 ^ 10 <= 2 ^ 200) by (apply Rle_trans with (2 ^ 60); [lra|apply Rle_pow; [lra|lia]]); lra|].
  split; [exact F|]. split; [|split; [exact H2|split; [lra|lra]]]. pose proof (rnd_err 53 1024 Hp53 (litR m e)) as R. fold u eta in R. change (rnd (litR m e)) with (rnd64 (litR m e)) in R. rewrite <- D in R.
  assert (uV : u * Rabs (litR m e) <= u * (1.01 * V)) by (apply Rmult_le_compat_l; lra). assert (5 / 10 ^ 17 * V <= 0.46 * (u * V)). { rewrite <- Rmult_assoc. apply Rmult_le_compat_r; [lra|]. rewrite u_val. lra. }
  assert (u * Vlo <= u * V) by (apply Rmult_le_compat_l; lra).
  replace (B2R (lit N m e) - v) with ((B2R (lit N m e) - litR m e) + (litR m e - v)) by ring. eapply Rle_trans; [apply Rabs_triang|]. lra.
Qed.
Lemma E_log (x : fl) : is_finite x = true -> 0 < B2R x -> u / 2 <= Rabs (ln (B2R x)) -> Rabs (ln (B2R x)) <= 10 ^ 4 -> E (nlog N x) (ln (B2R x)) (Rabs (ln (B2R x))) 5.
Proof.
  intros F H1 H2 H4. pose proof u_b as U. pose proof eta_lo as ET. pose proof Vlo_u4 as V4. pose proof Vhi_ge. pose proof Vlo_pos as VP.
  assert (VL : Vlo <= u / 2). { eapply Rle_trans; [exact V4|]. replace (u * u * u * u / 10 ^ 9) with (u * (u * (u * u)) / 10 ^ 9) by field. assert (u * u <= 1 * 1) by (apply Rmult_le_compat; lra). assert (0 <= u * u) by (apply Rmult_le_pos; lra). assert (u * (u * u) <= 1 * 1) by (apply Rmult_le_compat; lra). assert (0 <= u * (u * u)) by (apply Rmult_le_pos; lra). assert (u * (u * (u * u)) <= u * 1) by (apply Rmult_le_compat_l; lra). lra. }
  apply (E_A _ _ (4 * u * Rabs (ln (B2R x)) + 2 * eta)); [apply A_close; exact (log_acc _ _ _ _ _ HL x F H1)|lra| |lra|lra].
  assert (u * Vlo <= u * Rabs (ln (B2R x))) by (apply Rmult_le_compat_l; lra). lra.
Qed.
Lemma E_logL (x : fl) : is_finite x = true -> 0 < B2R x -> Rabs (ln (B2R x)) <= 10 ^ 4 -> E (nlog N x) (ln (B2R x)) (1 + Rabs (ln (B2R x))) 5.
Proof.
  intros F H1 H4. pose proof u_b as U. pose proof eta_lo as ET. pose proof Vlo_le as V4. pose proof Vhi_ge. pose proof Vlo_pos as VP. pose proof (Rabs_pos (ln (B2R x))) as LP.
  apply (E_A _ _ (4 * u * Rabs (ln (B2R x)) + 2 * eta)); [apply A_close; exact (log_acc _ _ _ _ _ HL x F H1)|lra| |lra|lra].
  assert (u * Vlo <= u * 1) by (apply Rmult_le_compat_l; lra). assert (0 <= u * Rabs (ln (B2R x))) by (apply Rmult_le_pos; lra). lra.
Qed.
Lemma E_log1p (x : fl) : is_finite x = true -> -1 < B2R x -> u / 2 <= Rabs (ln (1 + B2R x)) -> Rabs (ln (1 + B2R x)) <= 10 ^ 4 -> E (nlog1p N x) (ln (1 + B2R x)) (Rabs (ln (1 + B2R x))) 5.
Proof.
  intros F H1 H2 H4. pose proof u_b as U. pose proof eta_lo as ET. pose proof Vlo_u4 as V4. pose proof Vhi_ge. pose proof Vlo_pos as VP.
  assert (VL : Vlo <= u / 2). { eapply Rle_trans; [exact V4|]. replace (u * u * u * u / 10 ^ 9) with (u * (u * (u * u)) / 10 ^ 9) by field. assert (u * u <= 1 * 1) by (apply Rmult_le_compat; lra). assert (0 <= u * u) by (apply Rmult_le_pos; lra). assert (u * (u * u) <= 1 * 1) by (apply Rmult_le_compat; lra). assert (0 <= u * (u * u)) by (apply Rmult_le_pos; lra). assert (u * (u * (u * u)) <= u * 1) by (apply Rmult_le_compat_l; lra). lra. }
  apply (E_A _ _ (4 * u * Rabs (ln (1 + B2R x)) + 2 * eta)); [apply A_close; exact (log1p_acc _ _ _ _ _ HL x F H1)|lra| |lra|lra].
  assert (u * Vlo <= u * Rabs (ln (1 + B2R x))) by (apply Rmult_le_compat_l; lra). lra.
Qed.

(** ** facts about rounding *)
Lemma int_v z : (Z.abs z <= 1000)%Z -> is_finite (lit N z 0) = true /\ B2R (lit N z 0) = IZR z.
Proof. intros H. destruct (litZ_exact 53 1024 Hp53 He53 ltac:(lia) z) as [P Q]; [lia|split; assumption]. Qed.
Lemma half_v : is_finite (lit N 5 (-1)) = true /\ B2R (lit N 5 (-1)) = / 2.
Proof.
  assert (EE : B2SF (blit 53 1024 Hp53 He53 5 (-1)) = SpecFloat.S754_finite false 4503599627370496 (- 53)) by (vm_compute; reflexivity).
  change (lit N 5 (-1)) with (blit 53 1024 Hp53 He53 5 (-1)). split; [rewrite <- is_finite_SF_B2SF, EE; reflexivity|]. rewrite <- SF2R_B2SF, EE. cbn [SF2R cond_Zopp]. unfold F2R. cbn [Fnum Fexp]. rewrite bp2. change (Pos.to_nat 53) with 53%nat. lra.
Qed.
Lemma mhalf_v : is_finite (lit N (-5) (-1)) = true /\ B2R (lit N (-5) (-1)) = - / 2.
Proof.
  assert (EE : B2SF (blit 53 1024 Hp53 He53 (-5) (-1)) = SpecFloat.S754_finite true 4503599627370496 (- 53)) by (vm_compute; reflexivity).
  change (lit N (-5) (-1)) with (blit 53 1024 Hp53 He53 (-5) (-1)). split; [rewrite <- is_finite_SF_B2SF, EE; reflexivity|]. rewrite <- SF2R_B2SF, EE. cbn [SF2R cond_Zopp]. unfold F2R. cbn [Fnum Fexp]. change (- Z.pos 4503599627370496)%Z with (-4503599627370496)%Z. rewrite bp2. change (Pos.to_nat 53) with 53%nat. lra.
Qed.
Lemma E_half : E (lit N 5 (-1)) (/ 2) (/ 2) 0.
Proof. destruct half_v as [F V]. pose proof Vlo_le. pose proof Vhi_ge. split; [exact F|]. rewrite V, Rminus_eq_0, Rabs_R0, Rabs_pos_eq by lra. split; [lra|split; [lra|split; lra]]. Qed.
Lemma E_mhalf : E (lit N (-5) (-1)) (- / 2) (/ 2) 0.
Proof. destruct mhalf_v as [F V]. pose proof Vlo_le. pose proof Vhi_ge. split; [exact F|]. rewrite V, Rminus_eq_0, Rabs_R0, Rabs_Ropp, Rabs_pos_eq by lra. split; [lra|split; [lra|split; lra]]. Qed.
Lemma gf_1 : generic_format radix2 fexp 1.
Proof. rewrite <- (proj2 (int_v 1 ltac:(lia))). apply generic_format_B2R. Qed.
Lemma rmono a b : a <= b -> rnd a <= rnd b. Proof. exact (rnd_mono 53 1024 Hp53 a b). Qed.
Lemma rint z : (Z.abs z <= 1000)%Z -> rnd (IZR z) = IZR z.
Proof. intros H. destruct (int_v z H) as [_ EE]. rewrite <- EE. apply rnd_B. Qed.
Lemma rhalf : rnd (/ 2) = / 2. Proof. rewrite <- (proj2 half_v). apply rnd_B. Qed.
Lemma below_1 (x : fl) : B2R x < 1 -> B2R x <= 1 - u.
Proof.
  intros H. pose proof (pred_ge_gt radix2 fexp (B2R x) 1 (generic_format_B2R 53 1024 x) gf_1 H) as P. eapply Rle_trans; [exact P|].
  change 1 with (bpow radix2 0) at 1. rewrite pred_bpow. unfold SpecFloat.fexp, SpecFloat.emin. rewrite Z.max_l by lia. unfold Fcalc.u. change (bpow radix2 0) with 1. change (0 - 53)%Z with (- (53))%Z. lra.
Qed.
Lemma above_1 (x : fl) : 1 < B2R x -> 1 + 2 * u <= B2R x.
Proof.
  intros H. pose proof (succ_le_lt radix2 fexp 1 (B2R x) gf_1 (generic_format_B2R 53 1024 x) H) as P. eapply Rle_trans; [|exact P].
  rewrite succ_eq_pos by lra. change 1 with (bpow radix2 0) at 3. rewrite ulp_bpow. unfold SpecFloat.fexp, SpecFloat.emin. rewrite Z.max_l by lia.
  unfold Fcalc.u. change (0 + 1 - 53)%Z with (1 + - (53))%Z. rewrite bpow_plus. change (bpow radix2 1) with 2. lra.
Qed.
Lemma ln_le_1024 (x : fl) : is_finite x = true -> 0 < B2R x -> ln (B2R x) <= 1000.
Proof.
  intros F H. assert (B2R x < bpow radix2 1024) by (pose proof (abs_B2R_lt_emax 53 1024 x) as Q; rewrite Rabs_pos_eq in Q by lra; exact Q).
  apply Rle_trans with (ln (bpow radix2 1024)); [apply ln_le; lra|]. rewrite bpow_exp, ln_exp. change (IZR radix2) with 2. interval.
Qed.
Lemma inv_f (x : fl) : is_finite x = true -> 1 < Rabs (B2R x) -> is_finite (div N (lit N 1 0) x) = true /\ B2R (div N (lit N 1 0) x) = rnd (/ B2R x) /\ Rabs (rnd (/ B2R x) - / B2R x) <= u * Rabs (/ B2R x) + eta /\ Rabs (/ B2R x) < 1.
Proof.
  intros Fx Hx. destruct (int_v 1 ltac:(lia)) as [F1 V1]. assert (X0 : B2R x <> 0) by (intros Z; rewrite Z, Rabs_R0 in Hx; lra).
  assert (P : Rabs (/ B2R x) < 1) by (rewrite Rabs_inv, <- Rinv_1; apply Rinv_lt_contravar; lra). pose proof Vhi_big. pose proof Vhi_ge.
  destruct (div_r 53 1024 Hp53 He53 ltac:(lia) ltac:(lia) ltac:(lia) L (lit N 1 0) x F1 X0) as [P1 Q1].
  { rewrite V1. unfold Rdiv. rewrite Rmult_1_l. lra. }
  split; [exact P1|]. split; [|split; [|exact P]]. { change (div N (lit N 1 0) x) with (div NN (lit N 1 0) x). rewrite Q1, V1. unfold Rdiv. rewrite Rmult_1_l. reflexivity. }
  pose proof (rnd_err 53 1024 Hp53 (/ B2R x)) as R. fold u eta in R. exact R.
Qed.
Lemma sub_sterb (x y : fl) : is_finite x = true -> is_finite y = true -> B2R y / 2 <= B2R x <= 2 * B2R y -> Rabs (B2R x - B2R y) <= 10 -> is_finite (sub N x y) = true /\ B2R (sub N x y) = B2R x - B2R y.
Proof.
  intros Fx Fy H B. pose proof Vhi_big. pose proof Vhi_ge. destruct (sub_r 53 1024 Hp53 He53 ltac:(lia) ltac:(lia) ltac:(lia) L x y Fx Fy) as [P Q]; [lra|].
  split; [exact P|]. change (sub N x y) with (sub NN x y). rewrite Q. apply round_generic; [apply valid_rnd_N|]. apply sterbenz; [apply (fexp_correct 53 1024 Hp53)|apply fexp_monotone|apply generic_format_B2R|apply generic_format_B2R|lra].
Qed.

(** ** the cores x p(x) / q(x) *)
Lemma ratio_A (x pf qf : fl) P Q cp cq : is_finite x = true -> Rabs (B2R x) <= 1 -> is_finite pf = true -> is_finite qf = true ->
  0 < P <= 8 / 5 * Q -> / 40 <= Q <= 20 -> Rabs (B2R pf - P) <= cp * u * P -> Rabs (B2R qf - Q) <= cq * u * Q -> 0 <= cp <= 10 ^ 6 -> 0 <= cq <= 10 ^ 6 ->
  A (div N (mul N x pf) qf) (B2R x * (P / Q)) ((5 / 3 * (cp + cq) + 4) * u * Rabs (B2R x) + 45 * eta).
Proof.
  intros Fx HX Fp Fq HP HQ Ep Eq C0 C1. pose proof u_b as U. pose proof eta_lo as T. pose proof Vlo_pos as V0. pose proof Vlo_le as V1. pose proof Vhi_big as VB. pose proof Vhi_ge as VH.
  assert (eu : eta <= / 10 ^ 30). { assert (u * Vlo <= 1 * / 10 ^ 60) by (apply Rmult_le_compat; lra). lra. }
  set (X := B2R x) in *. set (pv := B2R pf) in *. set (qv := B2R qf) in *. set (Y := Rabs X) in *. assert (Y0 : 0 <= Y <= 1) by (split; [apply Rabs_pos|exact HX]).
  assert (C2 : cp * u <= / 100) by (apply Rle_trans with (10 ^ 6 * / 10 ^ 15); [apply Rmult_le_compat; lra|lra]). assert (C3 : cq * u <= / 100) by (apply Rle_trans with (10 ^ 6 * / 10 ^ 15); [apply Rmult_le_compat; lra|lra]).
  assert (Pb : 99 / 100 * P <= pv <= 101 / 100 * P). { apply Rabs_le_between in Ep. assert (cp * u * P <= / 100 * P) by (apply Rmult_le_compat_r; lra). lra. }
  assert (Qb : 99 / 100 * Q <= qv <= 101 / 100 * Q). { apply Rabs_le_between in Eq. assert (cq * u * Q <= / 100 * Q) by (apply Rmult_le_compat_r; lra). lra. }
  assert (Gv : 0 < pv / qv <= 33 / 20). { split; [apply Rdiv_lt_0_compat; lra|]. apply (Rmult_le_reg_r qv); [lra|]. unfold Rdiv. rewrite Rmult_assoc, Rinv_l by lra. lra. }
  assert (Iq : 0 < / qv <= 41). { split; [apply Rinv_0_lt_compat; lra|]. apply (Rmult_le_reg_l qv); [lra|]. rewrite Rinv_r by lra. lra. }
  assert (Ypv : 0 <= Y * pv <= 40). { split; [apply Rmult_le_pos; lra|]. apply Rle_trans with (1 * 40); [apply Rmult_le_compat; lra|lra]. }
  assert (AXp : Rabs (X * pv) = Y * pv) by (rewrite Rabs_mult, (Rabs_pos_eq pv) by lra; reflexivity).
  destruct (mul_r 53 1024 Hp53 He53 ltac:(lia) ltac:(lia) ltac:(lia) L x pf Fx Fp) as [F2 V2]. { fold X pv. rewrite AXp. lra. }
  fold X pv in V2. pose proof (rnd_err 53 1024 Hp53 (X * pv)) as R2. fold u eta in R2. rewrite <- V2, AXp in R2. set (t2 := mul NN x pf) in *.
  set (g := pv / qv) in *. assert (D3 : Rabs (B2R t2 / qv - X * g) <= u * (Y * g) + 41 * eta).
  { replace (B2R t2 / qv - X * g) with ((B2R t2 - X * pv) * / qv) by (unfold g; field; lra). rewrite Rabs_mult, (Rabs_pos_eq (/ qv)) by lra.
    apply Rle_trans with ((u * (Y * pv) + eta) * / qv); [apply Rmult_le_compat_r; lra|]. replace ((u * (Y * pv) + eta) * / qv) with (u * (Y * g) + / qv * eta) by (unfold g; field; lra). assert (/ qv * eta <= 41 * eta) by (apply Rmult_le_compat_r; lra). lra. }
  assert (Yg : 0 <= Y * g <= 33 / 20 * Y) by (split; [apply Rmult_le_pos; lra|rewrite (Rmult_comm Y); apply Rmult_le_compat_r; lra]). assert (uY : 0 <= u * Y) by (apply Rmult_le_pos; lra).
  assert (uYg : 0 <= u * (Y * g) <= 33 / 20 * (u * Y)) by (split; [apply Rmult_le_pos; lra|replace (33 / 20 * (u * Y)) with (u * (33 / 20 * Y)) by ring; apply Rmult_le_compat_l; lra]).
  assert (AXg : Rabs (X * g) = Y * g) by (rewrite Rabs_mult, (Rabs_pos_eq g) by lra; reflexivity).
  assert (uY1 : u * Y <= / 10 ^ 15 * Y) by (apply Rmult_le_compat_r; lra).
  assert (B3 : Rabs (B2R t2 / qv) <= 17 / 10 * Y + 41 * eta). { replace (B2R t2 / qv) with (X * g + (B2R t2 / qv - X * g)) by ring. eapply Rle_trans; [apply Rabs_triang|]. lra. }
  destruct (div_r 53 1024 Hp53 He53 ltac:(lia) ltac:(lia) ltac:(lia) L t2 qf F2 ltac:(fold qv; lra)) as [F3 V3]. { fold qv. lra. }
  fold qv in V3. pose proof (rnd_err 53 1024 Hp53 (B2R t2 / qv)) as R3. fold u eta in R3. rewrite <- V3 in R3. split; [exact F3|].
  assert (uB3 : u * Rabs (B2R t2 / qv) <= 17 / 10 * (u * Y) + eta / 2). { apply Rle_trans with (u * (17 / 10 * Y + 41 * eta)); [apply Rmult_le_compat_l; lra|]. assert (u * eta <= / 10 ^ 15 * eta) by (apply Rmult_le_compat_r; lra). lra. }
  assert (D6 : Rabs (g - P / Q) <= 5 / 3 * (cp + cq) * u).
  { replace (g - P / Q) with (((pv - P) * Q + - (P * (qv - Q))) * (/ qv * / Q)) by (unfold g; field; lra). rewrite Rabs_mult.
    assert (I1 : 0 < / qv * / Q) by (apply Rmult_lt_0_compat; [lra|apply Rinv_0_lt_compat; lra]). rewrite (Rabs_pos_eq (/ qv * / Q)) by lra.
    apply Rle_trans with ((cp + cq) * u * P * Q * (/ qv * / Q)).
    - apply Rmult_le_compat_r; [lra|]. eapply Rle_trans; [apply Rabs_triang|]. rewrite Rabs_Ropp, !Rabs_mult, (Rabs_pos_eq Q), (Rabs_pos_eq P) by lra.
      assert (Rabs (pv - P) * Q <= cp * u * P * Q) by (apply Rmult_le_compat_r; lra). assert (P * Rabs (qv - Q) <= P * (cq * u * Q)) by (apply Rmult_le_compat_l; lra). lra.
    - replace ((cp + cq) * u * P * Q * (/ qv * / Q)) with (P * / qv * ((cp + cq) * u)) by (field; lra). replace (5 / 3 * (cp + cq) * u) with (5 / 3 * ((cp + cq) * u)) by ring.
      apply Rmult_le_compat_r; [apply Rmult_le_pos; lra|]. apply (Rmult_le_reg_r qv); [lra|]. rewrite Rmult_assoc, Rinv_l by lra. lra. }
  assert (D7 : Rabs (X * g - X * (P / Q)) <= 5 / 3 * (cp + cq) * u * Y).
  { replace (X * g - X * (P / Q)) with (X * (g - P / Q)) by ring. rewrite Rabs_mult. fold Y. rewrite Rmult_comm. apply Rmult_le_compat_r; lra. }
  change (div N (mul N x pf) qf) with (div NN t2 qf).
  replace (B2R (div NN t2 qf) - X * (P / Q)) with ((B2R (div NN t2 qf) - B2R t2 / qv) + ((B2R t2 / qv - X * g) + (X * g - X * (P / Q)))) by ring.
  eapply Rle_trans; [apply Rabs_triang|]. assert (Rabs ((B2R t2 / qv - X * g) + (X * g - X * (P / Q))) <= u * (Y * g) + 41 * eta + 5 / 3 * (cp + cq) * u * Y) by (eapply Rle_trans; [apply Rabs_triang|]; lra).
  replace ((5 / 3 * (cp + cq) + 4) * u * Y) with (5 / 3 * (cp + cq) * u * Y + 4 * (u * Y)) by ring. lra.
Qed.
(** numerator and denominator on a grid *)
Definition relb (D c : Z) (b : bnd) : bool := ((0 <? lo b) && (SH <=? D * lo b) && (hi b <=? 20 * SH) && (er b * 2 ^ 53 * 1000 <=? c * lo b))%Z.
Lemma relb_ok D c b v (f : fl) : (0 < D)%Z -> relb D c b = true -> rel 53 1024 b v f -> is_finite f = true /\ / IZR D <= v <= 20 /\ Rabs (B2R f - v) <= IZR c / 1000 * u * v.
Proof.
  intros HD. unfold relb. rewrite !andb_true_iff, Z.ltb_lt, !Z.leb_le. intros [[[H1 H2] H3] H4] (F & I & R). apply IZR_lt in H1. apply IZR_le in H2, H3, H4. rewrite !mult_IZR in *. fold sc in H2, H3. pose proof sc_pos as S0.
  assert (D0 : 0 < IZR D) by (apply (IZR_lt 0); exact HD).
  split; [exact F|]. split.
  { split; apply (Rmult_le_reg_r sc); try lra. apply Rle_trans with (IZR (lo b)); [|lra]. apply (Rmult_le_reg_l (IZR D)); [exact D0|]. rewrite <- Rmult_assoc, Rinv_r, Rmult_1_l by lra. exact H2. }
  assert (EU : IZR (2 ^ 53) * u = 1).
  { unfold Fcalc.u. change (2 ^ 53)%Z with (Zpower radix2 53). rewrite IZR_Zpower by lia. rewrite <- bpow_plus. reflexivity. }
  assert (U : 0 < u) by apply bpow_gt_0. apply (Rmult_le_reg_r sc); [exact S0|]. eapply Rle_trans; [exact R|].
  assert (H5 : IZR (er b) * 1000 <= IZR c * IZR (lo b) * u). { apply (Rmult_le_compat_r u) in H4; [|lra]. replace (IZR (er b) * IZR (2 ^ 53) * 1000 * u) with (IZR (er b) * 1000 * (IZR (2 ^ 53) * u)) in H4 by ring. rewrite EU in H4. lra. }
  destruct (Rle_lt_dec 0 (IZR c)) as [C0|C0].
  - assert (IZR c * IZR (lo b) * u <= IZR c * (v * sc) * u) by (apply Rmult_le_compat_r; [lra|apply Rmult_le_compat_l; lra]). lra.
  - exfalso. assert (0 <= IZR (er b)) by (eapply Rle_trans; [|exact R]; apply Rmult_le_pos; [apply Rabs_pos|lra]). assert (IZR c * IZR (lo b) * u < 0); [|lra].
    assert (0 < IZR (lo b) * u) by (apply Rmult_lt_0_compat; lra). rewrite Rmult_assoc. nra.
Qed.
Lemma poly_ok e l0 st n D c (y : fl) : checkp 53 e (grid l0 st n) (relb D c) = true -> (0 < D)%Z -> (0 < st)%Z -> (0 < n)%nat -> is_finite y = true -> IZR l0 <= B2R y * s40 <= IZR (l0 + st * Z.of_nat n) ->
  is_finite (evalN N (fun i => nth i [y] (B754_zero false)) e) = true /\ / IZR D <= evalR (fun i => nth i [B2R y] 0) e <= 20 /\
  Rabs (B2R (evalN N (fun i => nth i [y] (B754_zero false)) e) - evalR (fun i => nth i [B2R y] 0) e) <= IZR c / 1000 * u * evalR (fun i => nth i [B2R y] 0) e.
Proof.
  intros C HD Hs Hn Fy Hy. destruct (grid_cover l0 st n (B2R y) Hs Hn Hy) as (l & h & I & B).
  destruct (checkp_ok 53 1024 Hp53 He53 ltac:(lia) ltac:(lia) ltac:(lia) L e _ _ [xv l h] [B2R y] [y] C I eq_refl eq_refl) as (b & B1 & B2).
  - intros [|[|i]] Hi; cbn in Hi; try lia. cbn [nth]. apply rel_exact; [exact Fy|]. apply xv_rng. exact B.
  - exact (relb_ok D c b _ _ HD B1 B2).
Qed.
End C.
