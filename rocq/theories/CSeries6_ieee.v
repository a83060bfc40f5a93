(** * The series of Li(n,z) in the disc |z| <= 3/4, in double arithmetic: accuracy of what it returns within 4000 passes *)
From Coq Require Import ZArith Reals Bool Lia Lra Psatz List.
From Coquelicot Require Import Coquelicot.
From Interval Require Import Tactic.
From Flocq Require Import Core Relative IEEE754.BinarySingleNaN.
From Verif Require Import Outcome Num NumR Spec NumB NumB_facts Proof_Float Libm Fcalc Cplx Ccalc CLi CLi_disc CLi_ref Li_gen Model_Li Ieee Li34_ieee CvsCpp Cieee CLi2_ieee CSeries_ieee CSeries2_ieee CSeries3_ieee.
Import ListNotations.
Local Open Scope R_scope.
Local Notation is_finite := BinarySingleNaN.is_finite.

Lemma step_real6 t f a B v y : 0 <= t <= 3 / 4 -> 0 <= f <= 3 / 4 -> 0 <= a <= / 1000 -> 0 <= B <= / 1000 -> 0 <= v <= / 1000 -> 0 <= y <= / 1000 ->
  (t * (1 + B) + 24 * y) * (f * a + 2 * y) + (f + (f * a + 2 * y)) * (B * t + 24 * y) + 31 / 10 * (v * ((t * (1 + B) + 24 * y) * (f + (f * a + 2 * y)))) + 3 * y <= t * f * (B + 1.01 * a + 3.2 * v) + 24 * y.
Proof.
  intros Ht Hf Ha HB Hv Hy. set (p := t * f). assert (p0 : 0 <= p) by (apply Rmult_le_pos; lra).
  assert (pa : 0 <= p * a) by (apply Rmult_le_pos; lra). assert (pv : 0 <= p * v) by (apply Rmult_le_pos; lra).
  (* X = t(1+B) + 8y, Y = f(1+a) + 2y *)
  assert (E1 : t * B <= 3 / 4 * / 1000) by (apply Rmult_le_compat; lra). assert (t * B >= 0) by (apply Rle_ge, Rmult_le_pos; lra).
  assert (E2 : f * a <= 3 / 4 * / 1000) by (apply Rmult_le_compat; lra). assert (f * a >= 0) by (apply Rle_ge, Rmult_le_pos; lra).
  assert (Q1 : (t * (1 + B) + 24 * y) * (f * a + 2 * y) <= p * a * (1001 / 1000) + 24 * y * (f * a + 2 * y) + 2 * y * (t + t * B)).
  { replace ((t * (1 + B) + 24 * y) * (f * a + 2 * y)) with (p * a * (1 + B) + 24 * y * (f * a + 2 * y) + 2 * y * (t + t * B)) by (unfold p; ring). assert (p * a * (1 + B) <= p * a * (1001 / 1000)) by (apply Rmult_le_compat_l; lra). lra. }
  assert (Q1b : 24 * y * (f * a + 2 * y) <= 24 * y * (3 / 1000)) by (apply Rmult_le_compat_l; lra).
  assert (Q1c : 2 * y * (t + t * B) <= 2 * y * (76 / 100)) by (apply Rmult_le_compat_l; lra).
  assert (Q2 : (f + (f * a + 2 * y)) * (B * t + 24 * y) <= p * B + p * a * / 1000 + 2 * y * (t * B) + 24 * y * (f + f * a + 2 * y)).
  { replace ((f + (f * a + 2 * y)) * (B * t + 24 * y)) with (p * B + p * a * B + 2 * y * (t * B) + 24 * y * (f + f * a + 2 * y)) by (unfold p; ring). assert (p * a * B <= p * a * / 1000) by (apply Rmult_le_compat_l; lra). lra. }
  assert (Q2b : 2 * y * (t * B) <= 2 * y * (8 / 10000)) by (apply Rmult_le_compat_l; lra).
  assert (Q2c : 24 * y * (f + f * a + 2 * y) <= 24 * y * (753 / 1000)) by (apply Rmult_le_compat_l; lra).
  assert (Q3 : (t * (1 + B) + 24 * y) * (f + (f * a + 2 * y)) <= p * (1003 / 1000) + 20 * y).
  { replace ((t * (1 + B) + 24 * y) * (f + (f * a + 2 * y))) with (p * ((1 + B) * (1 + a)) + 24 * y * (f + f * a + 2 * y) + 2 * y * (t + t * B)) by (unfold p; ring).
    assert ((1 + B) * (1 + a) <= (1 + / 1000) * (1 + / 1000)) by (apply Rmult_le_compat; lra). assert (p * ((1 + B) * (1 + a)) <= p * (1003 / 1000)) by (apply Rmult_le_compat_l; lra). lra. }
  assert (Q4 : v * ((t * (1 + B) + 24 * y) * (f + (f * a + 2 * y))) <= v * (p * (1003 / 1000) + 20 * y)) by (apply Rmult_le_compat_l; lra).
  assert (v * y <= / 1000 * y) by (apply Rmult_le_compat_r; lra). replace (v * (p * (1003 / 1000) + 20 * y)) with (1003 / 1000 * (p * v) + 20 * (v * y)) in Q4 by ring.
  replace (p * (B + 1.01 * a + 3.2 * v)) with (p * B + 1.01 * (p * a) + 3.2 * (p * v)) by ring. lra.
Qed.

Section S.
Variable L : libm 53 1024.
Hypothesis HL : libm_ok (Hp := Hp53) (He := He53) L.
Notation N := (B64 L).
Notation bfl := (binary_float 53 1024).
Notation bfexp := (SpecFloat.fexp 53 1024).
Notation rnd := (round radix2 bfexp ZnearestE).
Notation bu := (Fcalc.u 53).
Notation val := (Cieee.val L).
Notation CM := (Cieee.CM L).
Notation finc := (Cieee.finc L).
Variable n : nat.
Hypothesis Hn : (7 <= n)%nat.
Hypothesis Hn2 : INR n <= 10 ^ 6.
Lemma nZ : (Z.of_nat n <= 1000000)%Z. Proof. apply le_IZR. rewrite <- INR_IZR_INZ. lra. Qed.

Notation rho := (CSeries3_ieee.rho n).
Notation AA := (CSeries3_ieee.AA n).
Variable z : cpx N.
Hypothesis Fz : finc z.
Hypothesis Bm : Cmod (Cieee.val L z) <= 3 / 4.
Lemma Bz : Rabs (B2R (fst z)) <= 3 / 4 /\ Rabs (B2R (snd z)) <= 3 / 4.
Proof. pose proof (Cmod_fst (Cieee.val L z)). pose proof (Cmod_snd (Cieee.val L z)). unfold Cieee.val in *. cbn [fst snd] in *. split; lra. Qed.
Notation mu := (Cmod (val z)).
Lemma mu_b : 0 <= mu <= 3 / 4. Proof. split; [apply Cmod_ge_0|exact Bm]. Qed.
Notation fac := (CSeries3_ieee.fac L n z).
Lemma mul_near (x r : bfl) R d : is_finite x = true -> is_finite r = true -> Rabs (B2R x) <= 3 / 4 -> Rabs (B2R r) <= 2 -> Rabs (B2R r - R) <= d -> Rabs (B2R r) <= R + d ->
  is_finite (mul N x r) = true /\ Rabs (B2R (mul N x r) - B2R x * R) <= w / 2 + (bu * (R + d) + d) * Rabs (B2R x).
Proof.
  intros Fx Fr Bx Br HR BR. pose proof u_b as U. pose proof (Rabs_pos (B2R x)) as X0. destruct (mul_b L x r Fx Fr) as [F V].
  { apply big_2. rewrite Rabs_mult. apply Rle_trans with (3 / 4 * 2); [apply Rmult_le_compat; try apply Rabs_pos; assumption|lra]. }
  split; [exact F|]. rewrite V. replace (rnd (B2R x * B2R r) - B2R x * R) with ((rnd (B2R x * B2R r) - B2R x * B2R r) + B2R x * (B2R r - R)) by ring. eapply Rle_trans; [apply Rabs_triang|].
  pose proof (rerr (B2R x * B2R r)) as E. rewrite Rabs_mult in E. rewrite (Rabs_mult (B2R x) (B2R r - R)).
  assert (E1 : bu * (Rabs (B2R x) * Rabs (B2R r)) <= bu * (Rabs (B2R x) * (R + d))) by (apply Rmult_le_compat_l; [lra|apply Rmult_le_compat_l; assumption]).
  assert (E2 : Rabs (B2R x) * Rabs (B2R r - R) <= Rabs (B2R x) * d) by (apply Rmult_le_compat_l; assumption).
  replace ((bu * (R + d) + d) * Rabs (B2R x)) with (bu * (Rabs (B2R x) * (R + d)) + Rabs (B2R x) * d) by ring. lra.
Qed.
Lemma fac_ok k : (1 <= k <= 4000)%Z -> CM (fac k) (Cmult (val z) (RtoC (rho k))) (mu * rho k * ((2 * INR n + 2) * bu) + 2 * w).
Proof.
  intros Hk. destruct (qn_acc L HL n Hn Hn2 k Hk) as [Fq Aq]. destruct Fz as [Fx Fy]. destruct Bz as [Bx By]. destruct (rho_b n Hn k ltac:(lia)) as [r0 r1]. destruct mu_b as [m0 m1]. pose proof (nu_b n Hn Hn2) as NB. pose proof u_b as U. pose proof w_pos as W. pose proof w_small as WS.
  set (r := rho k) in *. set (q := qn L (Z.of_nat n) k) in *. set (d := 2 * INR n * bu * r + w) in *. assert (nr : 0 <= INR n * bu * r <= / 10 ^ 8 * 1) by (split; [apply Rmult_le_pos; lra|apply Rmult_le_compat; lra]).
  assert (d1 : 0 <= d <= / 10) by (unfold d; lra). assert (BR : Rabs (B2R q) <= r + d). { replace (B2R q) with ((B2R q - r) + r) by ring. eapply Rle_trans; [apply Rabs_triang|]. rewrite (Rabs_pos_eq r) by exact r0. lra. }
  destruct (mul_near (fst z) q r d Fx Fq Bx ltac:(lra) Aq BR) as [F1 A1]. destruct (mul_near (snd z) q r d Fy Fq By ltac:(lra) Aq BR) as [F2 A2].
  split; [split; [exact F1|exact F2]|]. eapply Rle_trans; [apply (Cmod_comb _ (w / 2) (w / 2) (bu * (r + d) + d) (val z))|].
  - lra.
  - lra.
  - assert (0 <= bu * (r + d)) by (apply Rmult_le_pos; lra). lra.
  - unfold Cminus, Cplus, Copp, Cmult, RtoC, Cieee.val, fac, cmul_cr. cbn [fst snd]. match goal with |- Rabs ?t <= _ => replace t with (B2R (mul N (fst z) q) - B2R (fst z) * r) by (change (qn L (Z.of_nat n) k) with q; ring) end. exact A1.
  - unfold Cminus, Cplus, Copp, Cmult, RtoC, Cieee.val, fac, cmul_cr. cbn [fst snd]. match goal with |- Rabs ?t <= _ => replace t with (B2R (mul N (snd z) q) - B2R (snd z) * r) by (change (qn L (Z.of_nat n) k) with q; ring) end. exact A2.
  - assert (ud : bu * d <= bu * r * / 10 ^ 7 + w * / 10 ^ 7).
    { unfold d. replace (bu * (2 * INR n * bu * r + w)) with (bu * r * (2 * (INR n * bu)) + bu * w) by ring. apply Rplus_le_compat; [apply Rmult_le_compat_l; [apply Rmult_le_pos; lra|lra]|rewrite Rmult_comm; apply Rmult_le_compat_l; lra]. }
    assert (br : 0 <= bu * r) by (apply Rmult_le_pos; lra).
    assert (K1 : bu * (r + d) + d <= (2 * INR n + 2) * bu * r + 1.1 * w) by (replace ((2 * INR n + 2) * bu * r) with (2 * INR n * bu * r + 2 * (bu * r)) by ring; unfold d at 2; lra).
    assert (K2 : (bu * (r + d) + d) * mu <= ((2 * INR n + 2) * bu * r + 1.1 * w) * mu) by (apply Rmult_le_compat_r; assumption).
    assert (K3 : w * mu <= w * (3 / 4)) by (apply Rmult_le_compat_l; lra).
    replace (((2 * INR n + 2) * bu * r + 1.1 * w) * mu) with (mu * r * ((2 * INR n + 2) * bu) + 1.1 * (w * mu)) in K2 by ring. lra.
Qed.
Lemma pterm_step k : pterm n (val z) (S k) = Cmult (pterm n (val z) k) (Cmult (val z) (RtoC (rho (Z.of_nat (S k))))).
Proof.
  unfold pterm, rho. change (Cpow (val z) (S (S k))) with (Cmult (val z) (Cpow (val z) (S k))). set (P := Cpow (val z) (S k)). replace (Z.of_nat (S k) + 1)%Z with (Z.of_nat (S (S k))) by lia. rewrite <- !INR_IZR_INZ.
  pose proof (lt_0_INR (S k) ltac:(lia)) as A1. pose proof (lt_0_INR (S (S k)) ltac:(lia)) as A2. unfold Rdiv. rewrite Rpow_mult_distr, pow_inv. rewrite RtoC_mult, RtoC_inv by (apply pow_nonzero; lra).
  pose proof (RtoC_neq _ (pow_nonzero (INR (S k)) n ltac:(lra))). pose proof (RtoC_neq _ (pow_nonzero (INR (S (S k))) n ltac:(lra))). unfold Cdiv. field. split; assumption.
Qed.
Lemma pterm_t k : Cmod (pterm n (val z) k) <= mu * (3 / 4) ^ k.
Proof.
  rewrite pterm_mod. destruct mu_b as [m0 m1]. cbn [pow]. pose proof (pow_incr mu (3 / 4) k (conj m0 m1)) as P. pose proof (pow_le mu k m0) as P0.
  assert (I1 : 1 <= INR (S k) ^ n) by (apply pow_R1_Rle; rewrite S_INR; pose proof (pos_INR k); lra).
  apply Rle_div_l; [lra|]. assert (Q : mu * mu ^ k <= mu * (3 / 4) ^ k) by (apply Rmult_le_compat_l; assumption). assert (Q0 : 0 <= mu * (3 / 4) ^ k) by (apply Rmult_le_pos; [exact m0|apply pow_le; lra]).
  replace (mu * mu ^ k) with (mu * mu ^ k * 1) by ring. apply Rmult_le_compat; [apply Rmult_le_pos; assumption|lra|exact Q|exact I1].
Qed.
Lemma pterm_mod_step k : Cmod (Cmult (pterm n (val z) k) (Cmult (val z) (RtoC (rho (Z.of_nat (S k)))))) = Cmod (pterm n (val z) k) * (mu * rho (Z.of_nat (S k))).
Proof. rewrite !Cmod_mult, Cmod_R, Rabs_pos_eq by (apply (rho_b n Hn); lia). reflexivity. Qed.
(** error of the term before pass k+1 *)
Definition ee (k : nat) : R := INR k * AA * Cmod (pterm n (val z) k) + 24 * w.
Lemma kA_b6 k : (k <= 4000)%nat -> 0 <= INR k * AA <= / 1000.
Proof. intros H. pose proof (AA_b n Hn Hn2) as AB. pose proof (le_INR k 4000 H) as K. replace (INR 4000) with 4000 in K by (rewrite INR_IZR_INZ; reflexivity). pose proof (pos_INR k). split; [apply Rmult_le_pos; lra|]. apply Rle_trans with (4000 * / 10 ^ 7); [apply Rmult_le_compat; lra|lra]. Qed.
Lemma term_step k p : (k < 4000)%nat -> CM p (pterm n (val z) k) (ee k) -> CM (cmul N p (fac (Z.of_nat (S k)))) (pterm n (val z) (S k)) (ee (S k)).
Proof.
  intros Hk Hp. pose proof (fac_ok (Z.of_nat (S k)) ltac:(lia)) as HF. rewrite pterm_step. set (t := Cmod (pterm n (val z) k)) in *. destruct (rho_b n Hn (Z.of_nat (S k)) ltac:(lia)) as [r0 r1]. destruct mu_b as [m0 m1]. destruct (kA_b6 k ltac:(lia)) as [B0 B1].
  pose proof w_pos as W. pose proof w_small as WS. pose proof u_b as U. pose proof (nu_b n Hn Hn2) as NB.
  assert (T : 0 <= t <= 3 / 4). { split; [apply Cmod_ge_0|]. eapply Rle_trans; [apply pterm_t|]. assert ((3 / 4) ^ k <= 1) by (rewrite <- (pow1 k); apply pow_incr; lra). assert (mu * (3 / 4) ^ k <= 3 / 4 * 1) by (apply Rmult_le_compat; try lra; apply pow_le; lra). lra. }
  set (r := rho (Z.of_nat (S k))) in *. set (f := mu * r) in *. assert (f0 : 0 <= f <= 3 / 4) by (unfold f; split; [apply Rmult_le_pos; assumption|]; apply Rle_trans with (3 / 4 * 1); [apply Rmult_le_compat; assumption|lra]).
  assert (MF : Cmod (Cmult (val z) (RtoC r)) = f) by (rewrite Cmod_mult, Cmod_R, Rabs_pos_eq by exact r0; reflexivity).
  set (a := (2 * INR n + 2) * bu) in *. assert (a0 : 0 <= a <= / 1000) by (unfold a; lra). set (B := INR k * AA) in *.
  assert (fa : 0 <= f * a <= 3 / 4 * / 1000) by (split; [apply Rmult_le_pos; lra|apply Rmult_le_compat; lra]). assert (Bt : 0 <= B * t <= / 1000 * (3 / 4)) by (split; [apply Rmult_le_pos; lra|apply Rmult_le_compat; lra]).
  unfold ee in Hp. fold t in Hp. fold B in Hp.
  eapply CM_weak; [apply (cmul_ok L p (fac (Z.of_nat (S k))) _ _ _ _ (t * (1 + B) + 24 * w) (f + (f * a + 2 * w)) Hp HF)|].
  - fold t. lra.
  - rewrite MF. lra.
  - rewrite MF. lra.
  - apply Rle_trans with (1 * 1); [apply Rmult_le_compat; lra|lra].
  - pose proof (step_real6 t f a B bu w T f0 a0 (conj B0 B1) ltac:(lra) ltac:(lra)) as SR.
    assert (E : Fcalc.eta 53 1024 = w / 2) by exact eta_w. rewrite E. unfold ee. rewrite pterm_step, pterm_mod_step. fold t. fold r. fold f. rewrite S_INR. replace ((INR k + 1) * AA) with (B + AA) by (unfold B; ring).
    assert (K : t * f * (B + 1.01 * a + 3.2 * bu) <= t * f * (B + AA)). { apply Rmult_le_compat_l; [apply Rmult_le_pos; lra|]. unfold a, AA. lra. }
    lra.
Qed.

Lemma ee_b k : ee k <= 43 / 100 * (bu * mu * (3 / 4) ^ k) + 24 * w.
Proof.
  unfold ee. apply Rplus_le_compat_r. destruct mu_b as [m0 m1]. pose proof u_b as U. pose proof (pow_le (3 / 4) k ltac:(lra)) as Q0. pose proof (AA_b n Hn Hn2) as AB. assert (BM : 0 <= bu * mu) by (apply Rmult_le_pos; lra).
  destruct k as [|k]; [cbn [INR]; rewrite !Rmult_0_l; apply Rmult_le_pos; [lra|apply Rmult_le_pos; [exact BM|exact Q0]]|].
  rewrite pterm_mod. set (i := INR (S (S k))). assert (I2 : 2 <= i) by (unfold i; rewrite !S_INR; pose proof (pos_INR k); lra). assert (IK : 0 <= INR (S k) <= i) by (split; [apply pos_INR|apply le_INR; lia]).
  pose proof (pow_incr mu (3 / 4) (S k) (conj m0 m1)) as P. pose proof (pow_le mu (S k) m0) as P0.
  replace (i ^ n) with (i * i ^ (n - 1)) by (rewrite tech_pow_Rmult; f_equal; lia).
  assert (J : 2 ^ (n - 1) <= i ^ (n - 1)) by (apply pow_incr; lra). pose proof (pow_lt 2 (n - 1) ltac:(lra)) as J0.
  change (mu ^ S (S k)) with (mu * mu ^ S k).
  replace (INR (S k) * AA * (mu * mu ^ S k / (i * i ^ (n - 1)))) with ((INR (S k) / i) * (AA / i ^ (n - 1)) * (mu * mu ^ S k)) by (field; split; lra).
  assert (A1 : 0 <= INR (S k) / i <= 1) by (split; [apply Rdiv_le_0_compat; lra|apply Rle_div_l; lra]).
  assert (A2 : 0 <= AA / i ^ (n - 1) <= 43 / 100 * bu).
  { split; [apply Rdiv_le_0_compat; lra|]. apply Rle_div_l; [lra|]. pose proof (n_2n n Hn). unfold AA. apply Rle_trans with (43 / 100 * 2 ^ (n - 1) * bu); [apply Rmult_le_compat_r; lra|]. replace (43 / 100 * bu * i ^ (n - 1)) with (43 / 100 * i ^ (n - 1) * bu) by ring. apply Rmult_le_compat_r; lra. }
  assert (A3 : 0 <= mu * mu ^ S k <= mu * (3 / 4) ^ S k) by (split; [apply Rmult_le_pos; assumption|apply Rmult_le_compat_l; assumption]).
  replace (43 / 100 * (bu * mu * (3 / 4) ^ S k)) with (1 * (43 / 100 * bu) * (mu * (3 / 4) ^ S k)) by ring. apply Rmult_le_compat; [apply Rmult_le_pos; lra|lra|apply Rmult_le_compat; lra|lra].
Qed.
Lemma t40 k : (40 <= k)%nat -> Cmod (pterm n (val z) k) <= / 2 * (bu * mu * (3 / 4) ^ (k - 40)).
Proof.
  intros Hk. rewrite pterm_mod. destruct mu_b as [m0 m1]. pose proof (pow_incr mu (3 / 4) k (conj m0 m1)) as P. pose proof (pow_le mu k m0) as P0. pose proof u_b as U.
  assert (I1 : 41 ^ 7 <= INR (S k) ^ n). { assert (41 <= INR (S k)) by (replace 41 with (INR 41) by (rewrite INR_IZR_INZ; reflexivity); apply le_INR; lia). apply Rle_trans with (41 ^ n); [apply Rle_pow; [lra|exact Hn]|apply pow_incr; lra]. }
  apply Rle_div_l; [lra|]. change (mu ^ S k) with (mu * mu ^ k).
  set (q := (3 / 4) ^ (k - 40)). assert (q0 : 0 <= q) by (apply pow_le; lra). assert (E : (3 / 4) ^ k = (3 / 4) ^ 40 * q) by (unfold q; rewrite <- pow_add; f_equal; lia).
  assert (C0 : (3 / 4) ^ 40 <= / 2 * bu * 41 ^ 7) by (rewrite u_val; lra).
  apply Rle_trans with (mu * (/ 2 * bu * 41 ^ 7 * q)).
  - apply Rmult_le_compat_l; [exact m0|]. eapply Rle_trans; [exact P|]. rewrite E. apply Rmult_le_compat_r; [exact q0|exact C0].
  - replace (mu * (/ 2 * bu * 41 ^ 7 * q)) with (/ 2 * (bu * mu * q) * 41 ^ 7) by ring. apply Rmult_le_compat_l; [|exact I1]. apply Rmult_le_pos; [lra|]. apply Rmult_le_pos; [apply Rmult_le_pos; lra|exact q0].
Qed.
(** error of the partial sum before pass k+1 *)
Definition DD (k : nat) : R := bu * mu * (1.05 * INR (min k 40) + 3.5 * (1 - (3 / 4) ^ k) + 2.05 * (1 - (3 / 4) ^ (k - 40))) + 60 * (w * INR k).
Lemma p01 k : 0 <= (3 / 4) ^ k <= 1.
Proof. split; [apply pow_le; lra|]. rewrite <- (pow1 k). apply pow_incr. lra. Qed.
Lemma DD_b k : (k <= 4000)%nat -> 0 <= DD k <= 47.55 * (bu * mu) + 240000 * w.
Proof.
  intros H. unfold DD. pose proof (p01 k). pose proof (p01 (k - 40)). destruct mu_b as [m0 m1]. pose proof u_b as U. pose proof w_pos as W. pose proof (le_INR k 4000 H) as K. replace (INR 4000) with 4000 in K by (rewrite INR_IZR_INZ; reflexivity). pose proof (pos_INR k).
  assert (BM : 0 <= bu * mu) by (apply Rmult_le_pos; lra). pose proof (pos_INR (min k 40)). assert (INR (min k 40) <= 40) by (replace 40 with (INR 40) by (rewrite INR_IZR_INZ; reflexivity); apply le_INR; lia).
  assert (WK : 0 <= w * INR k <= w * 4000) by (split; [apply Rmult_le_pos; lra|apply Rmult_le_compat_l; lra]).
  set (g := 1.05 * INR (min k 40) + 3.5 * (1 - (3 / 4) ^ k) + 2.05 * (1 - (3 / 4) ^ (k - 40))) in *. assert (G : 0 <= g <= 47.55) by (unfold g; lra). assert (0 <= bu * mu * g <= bu * mu * 47.55) by (split; [apply Rmult_le_pos; lra|apply Rmult_le_compat_l; lra]). lra.
Qed.
Lemma sum_step k s p : (k < 4000)%nat -> CM s (Csum (pterm n (val z)) k) (DD k) -> CM p (pterm n (val z) k) (ee k) ->
  CM (cadd N s p) (Csum (pterm n (val z)) (S k)) (DD (S k)) /\ Cmod (Cminus (val (cadd N s p)) (Cplus (val s) (val p))) <= w + bu * Cmod (Cplus (val s) (val p)) /\ Cmod (Cplus (val s) (val p)) <= 1.04 * mu + 240100 * w.
Proof.
  intros Hk [Fs Ds] [Fp Dp]. destruct (DD_b k ltac:(lia)) as [D0 D1]. pose proof (ee_b k) as E1. pose proof (p01 k) as PK. destruct mu_b as [m0 m1]. pose proof w_pos as W. pose proof w_small as WS. assert (U : 0 < bu <= / 10 ^ 15) by exact u_b.
  assert (BM : 0 <= bu * mu <= / 10 ^ 15 * mu) by (split; [apply Rmult_le_pos; lra|apply Rmult_le_compat_r; lra]).
  assert (BP : 0 <= bu * mu * (3 / 4) ^ k <= bu * mu * 1) by (split; [apply Rmult_le_pos; lra|apply Rmult_le_compat_l; lra]).
  pose proof (psum_small n (val z) (S k) Hn Bm) as PS. change (Csum (pterm n (val z)) (S k)) with (Cplus (Csum (pterm n (val z)) k) (pterm n (val z) k)) in *. set (T := pterm n (val z) k) in *. set (G := Csum (pterm n (val z)) k) in *.
  assert (DT : Cmod (Cminus (Cplus (val s) (val p)) (Cplus G T)) <= DD k + ee k).
  { replace (Cminus (Cplus (val s) (val p)) (Cplus G T)) with (Cplus (Cminus (val s) G) (Cminus (val p) T)) by ring. eapply Rle_trans; [apply Cmod_triangle|]. lra. }
  assert (SM : Cmod (Cplus (val s) (val p)) <= 1.03 * mu + (DD k + ee k)).
  { replace (Cplus (val s) (val p)) with (Cplus (Cplus G T) (Cminus (Cplus (val s) (val p)) (Cplus G T))) by ring. eapply Rle_trans; [apply Cmod_triangle|]. lra. }
  assert (S1 : Cmod (Cplus (val s) (val p)) <= 50) by lra.
  destruct (sum_err L s p Fs Fp S1) as (Fc & B1 & B2). set (e := Cmod (Cminus (val (cadd N s p)) (Cplus (val s) (val p)))) in *.
  assert (US : bu * Cmod (Cplus (val s) (val p)) <= 1.04 * (bu * mu) + w / 2).
  { apply Rle_trans with (bu * (1.03 * mu + (50 * (bu * mu) + 240100 * w))); [apply Rmult_le_compat_l; lra|]. assert (bu * (bu * mu) <= / 10 ^ 15 * (bu * mu)) by (apply Rmult_le_compat_r; lra). assert (bu * w <= / 10 ^ 15 * w) by (apply Rmult_le_compat_r; lra).
    replace (bu * (1.03 * mu + (50 * (bu * mu) + 240100 * w))) with (1.03 * (bu * mu) + 50 * (bu * (bu * mu)) + 240100 * (bu * w)) by ring. lra. }
  assert (CMs : Cmod (Cminus (val (cadd N s p)) (Cplus G T)) <= DD k + ee k + e).
  { replace (Cminus (val (cadd N s p)) (Cplus G T)) with (Cplus (Cminus (val (cadd N s p)) (Cplus (val s) (val p))) (Cminus (Cplus (val s) (val p)) (Cplus G T))) by ring. eapply Rle_trans; [apply Cmod_triangle|]. fold e. lra. }
  split; [|split; [exact B1|]].
  - split; [exact Fc|]. eapply Rle_trans; [exact CMs|].
    assert (PE : Cmod (val p) <= Cmod T + ee k) by (replace (val p) with (Cplus T (Cminus (val p) T)) by ring; eapply Rle_trans; [apply Cmod_triangle|]; lra).
    unfold DD. rewrite S_INR. change ((3 / 4) ^ S k) with (3 / 4 * (3 / 4) ^ k). clear CMs DT SM S1 PS D0 D1 Ds Dp. set (b := bu * mu) in *. destruct (le_lt_dec 40 k) as [C|C].
    + rewrite !Nat.min_r by lia. replace (S k - 40)%nat with (S (k - 40)) by lia. change ((3 / 4) ^ S (k - 40)) with (3 / 4 * (3 / 4) ^ (k - 40)). pose proof (t40 k C) as T15. fold T in T15. fold b in T15.
      assert (b * (3 / 4) ^ (k - 40) >= 0) by (apply Rle_ge, Rmult_le_pos; [lra|apply pow_le; lra]).
      replace (b * (1.05 * INR 40 + 3.5 * (1 - 3 / 4 * (3 / 4) ^ k) + 2.05 * (1 - 3 / 4 * (3 / 4) ^ (k - 40))) + 60 * (w * (INR k + 1))) with (b * (1.05 * INR 40 + 3.5 * (1 - (3 / 4) ^ k) + 2.05 * (1 - (3 / 4) ^ (k - 40))) + 60 * (w * INR k) + (0.875 * (b * (3 / 4) ^ k) + 0.5125 * (b * (3 / 4) ^ (k - 40)) + 60 * w)) by lra. lra.
    + rewrite !Nat.min_l by lia. replace (S k - 40)%nat with 0%nat by lia. replace (k - 40)%nat with 0%nat by lia. rewrite S_INR, pow_O.
      replace (b * (1.05 * (INR k + 1) + 3.5 * (1 - 3 / 4 * (3 / 4) ^ k) + 2.05 * (1 - 1)) + 60 * (w * (INR k + 1))) with (b * (1.05 * INR k + 3.5 * (1 - (3 / 4) ^ k) + 2.05 * (1 - 1)) + 60 * (w * INR k) + (1.05 * b + 0.875 * (b * (3 / 4) ^ k) + 60 * w)) by lra. lra.
  - eapply Rle_trans; [exact SM|]. lra.
Qed.
(** a pass that leaves the sum as it was ends the loop within the bound *)
Lemma at_exit k s p : (k < 4000)%nat -> CM s (Csum (pterm n (val z)) k) (DD k) -> CM p (pterm n (val z) k) (ee k) -> ceqb N (cadd N s p) s = true ->
  finc (cadd N s p) /\ Cmod (Cminus (val (cadd N s p)) (CLi n (val z))) <= 52 * (bu * mu) + 240300 * w.
Proof.
  intros Hk HS HP HE. destruct (sum_step k s p Hk HS HP) as ([Fc Dc] & E1 & E2). destruct HS as [[Fs1 Fs2] _]. destruct HP as [_ Dp]. destruct mu_b as [m0 m1]. pose proof w_pos as W. pose proof w_small as WS. assert (U : 0 < bu <= / 10 ^ 15) by exact u_b.
  assert (BM : 0 <= bu * mu) by (apply Rmult_le_pos; lra). assert (BW : 0 <= bu * w <= / 10 ^ 15 * w) by (split; [apply Rmult_le_pos; lra|apply Rmult_le_compat_r; lra]).
  destruct Fc as [Fc1 Fc2].
  assert (EV : val (cadd N s p) = val s).
  { unfold ceqb in HE. apply andb_prop in HE. destruct HE as [A B]. assert (A' : Req_bool (B2R (fst (cadd N s p))) (B2R (fst s)) = true) by (rewrite <- (eqb_R L _ _ Fc1 Fs1); exact A). assert (B' : Req_bool (B2R (snd (cadd N s p))) (B2R (snd s)) = true) by (rewrite <- (eqb_R L _ _ Fc2 Fs2); exact B).
    assert (K : forall a b, Req_bool a b = true -> a = b) by (intros a b; case Req_bool_spec; [intros X _; exact X|intros _ X; discriminate]). unfold Cieee.val. rewrite (K _ _ A'), (K _ _ B'). reflexivity. }
  assert (PV : Cmod (val p) <= 1.04 * (bu * mu) + 2 * w).
  { assert (Q : Cmod (Cminus (val (cadd N s p)) (Cplus (val s) (val p))) = Cmod (val p)) by (rewrite EV; replace (Cminus (val s) (Cplus (val s) (val p))) with (Copp (val p)) by ring; apply Cmod_opp). rewrite Q in E1. eapply Rle_trans; [exact E1|].
    assert (bu * Cmod (Cplus (val s) (val p)) <= bu * (1.04 * mu + 240100 * w)) by (apply Rmult_le_compat_l; lra). replace (bu * (1.04 * mu + 240100 * w)) with (1.04 * (bu * mu) + 240100 * (bu * w)) in H by ring. lra. }
  assert (TV : Cmod (pterm n (val z) k) <= 1.47 * (bu * mu) + 26 * w).
  { replace (pterm n (val z) k) with (Cminus (val p) (Cminus (val p) (pterm n (val z) k))) by ring. unfold Cminus at 1. eapply Rle_trans; [apply Cmod_triangle|]. rewrite Cmod_opp. pose proof (ee_b k) as EB. pose proof (p01 k) as PK.
    assert (bu * mu * (3 / 4) ^ k <= bu * mu * 1) by (apply Rmult_le_compat_l; lra). lra. }
  split; [split; assumption|]. destruct (DD_b (S k) ltac:(lia)) as [D0 D1]. pose proof (disc_tail n (val z) k ltac:(lia) ltac:(lra)) as DT. set (T := Cmod (pterm n (val z) k)) in *. assert (T0 : 0 <= T) by apply Cmod_ge_0.
  assert (G : mu / (1 - mu) <= 3) by (apply Rle_div_l; lra). assert (TG : T * (mu / (1 - mu)) <= T * (3)) by (apply Rmult_le_compat_l; assumption).
  replace (Cminus (val (cadd N s p)) (CLi n (val z))) with (Cminus (Cminus (val (cadd N s p)) (Csum (pterm n (val z)) (S k))) (Cminus (CLi n (val z)) (Csum (pterm n (val z)) (S k)))) by ring.
  unfold Cminus at 1. eapply Rle_trans; [apply Cmod_triangle|]. rewrite Cmod_opp. lra.
Qed.
Lemma ret_loop : forall fuel k s p v, (k + fuel <= 4000)%nat -> CM s (Csum (pterm n (val z)) k) (DD k) -> CM p (pterm n (val z) k) (ee k) ->
  Li_series_loop N fuel (Z.of_nat n) z (Z.of_nat k) s p = Val v -> finc v /\ Cmod (Cminus (val v) (CLi n (val z))) <= 52 * (bu * mu) + 240300 * w.
Proof.
  induction fuel as [|f IH]; intros k s p v Hk HS HP HV; [discriminate|].
  destruct (sum_step k s p ltac:(lia) HS HP) as (HS' & _ & _). pose proof (term_step k p ltac:(lia) HP) as HP'. assert (EK : (Z.of_nat k + 1 = Z.of_nat (S k))%Z) by lia.
  cbn [Li_series_loop] in HV. rewrite EK in HV. replace (i64 (Z.of_nat (S k))) with (Val (Z.of_nat (S k))%Z) in HV. 2:{ unfold i64. replace (_ && _)%bool with true; [reflexivity|]. symmetry. apply andb_true_intro. split; apply Z.leb_le; unfold INT64_MIN, INT64_MAX; lia. }
  cbn [bind] in HV. cbv zeta in HV. change (cmul N p (cmul_cr N z (npow N (div N (ofZ N (Z.of_nat (S k))) (add N (lit N 1 0) (ofZ N (Z.of_nat (S k))))) (ofZ N (Z.of_nat n))))) with (cmul N p (fac (Z.of_nat (S k)))) in HV.
  assert (FI : Model_Li.is_finite N (cmul N p (fac (Z.of_nat (S k)))) = true) by (apply fin_ok; apply HP'). rewrite FI in HV. cbn [negb] in HV.
  destruct (ceqb N (cadd N s p) s) eqn:HE.
  - cbn [negb andb] in HV. injection HV as <-. exact (at_exit k s p ltac:(lia) HS HP HE).
  - replace (Z.of_nat (S k) <? INT64_MAX - 2)%Z with true in HV by (symmetry; apply Z.ltb_lt; unfold INT64_MAX; lia). cbn [negb andb] in HV.
    exact (IH (S k) _ _ v ltac:(lia) HS' HP' HV).
Qed.
Lemma ret_acc fuel v : (fuel <= Z.to_nat 4000)%nat -> Li_series N fuel (Z.of_nat n) z = Val v -> finc v /\ Cmod (Cminus (val v) (CLi n (val z))) <= 52 * (bu * mu) + 240300 * w.
Proof.
  intros Hf HV. destruct (int_v L 0 ltac:(lia)) as [F0 V0]. pose proof w_pos as W. unfold Li_series in HV. change 0%Z with (Z.of_nat 0) in HV.
  apply (ret_loop fuel 0%nat (czero N) z v); [lia| | |exact HV].
  - split; [split; exact F0|]. cbn [Csum]. unfold Cieee.val, czero. cbn [fst snd]. rewrite V0. change (IZR 0, IZR 0) with (RtoC 0). replace (Cminus (RtoC 0) (RtoC 0)) with (RtoC 0) by ring. rewrite Cmod_0. apply DD_b. lia.
  - split; [exact Fz|]. replace (pterm n (val z) 0) with (val z).
    + replace (Cminus (val z) (val z)) with (RtoC 0) by ring. rewrite Cmod_0. unfold ee. cbn [INR]. lra.
    + unfold pterm. cbn [INR]. rewrite pow1. cbn [Cpow]. field. apply RtoC_neq. lra.
Qed.
End S.
