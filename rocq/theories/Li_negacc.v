(** * Li(-m,z), m = 2 .. 15: the loops of the code against the rational function Li_{-m} *)
From Coq Require Import ZArith Reals List Bool Lra Lia Psatz.
From Coquelicot Require Import Coquelicot.
From Flocq Require Import Core.Raux.
From Interval Require Import Tactic.
From Verif Require Import Num NumR Outcome Spec Eval_R Consts Model_Tables Model_Zeta Model_LiC Model_Li Proof_Int Proof_LiInt Cplx Proof_Horner Clog_series Chain Polylog Polylog_series Polyneg Zeta_num Bern Bern_num Properties_H Properties_I Rest Unity Properties_M Ccalc CLi CLi_disc CLi_inv Cpoly CLi_unity CLi_dev CLi_gen Li_gen NegExp.
Import ListNotations.
Local Open Scope R_scope.

(** ** binomial coefficients and the negative binomial series *)
Definition bc (m k : nat) : R := INR (fact (m + k)) * inv_fact k * inv_fact m.
Lemma bc_pos m k : 0 < bc m k.
Proof. unfold bc. pose proof (INR_fact_lt_0 (m + k)). pose proof (inv_fact_pos k). pose proof (inv_fact_pos m). apply Rmult_lt_0_compat; [apply Rmult_lt_0_compat; lra|lra]. Qed.
Lemma bc_0 k : bc 0 k = 1. Proof. unfold bc, inv_fact. cbn [Nat.add fact INR]. field. apply INR_fact_neq_0. Qed.
Lemma bc_k0 m : bc m 0 = 1. Proof. unfold bc, inv_fact. rewrite Nat.add_0_r. cbn [fact INR]. field. apply INR_fact_neq_0. Qed.
Lemma bc_pascal m k : bc (S m) (S k) = bc m (S k) + bc (S m) k.
Proof.
  unfold bc, inv_fact. replace (S m + S k)%nat with (S (S (m + k))) by lia. replace (m + S k)%nat with (S (m + k)) by lia. replace (S m + k)%nat with (S (m + k)) by lia.
  rewrite !fact_simpl, !mult_INR, !S_INR, plus_INR. pose proof (INR_fact_lt_0 m). pose proof (INR_fact_lt_0 k). pose proof (pos_INR m). pose proof (pos_INR k). field. lra.
Qed.
Lemma nb_step m r K : (1 - r) * sum_f_R0 (fun k => bc (S m) k * r ^ k) K = sum_f_R0 (fun k => bc m k * r ^ k) K - bc (S m) K * r ^ S K.
Proof. induction K as [|K IH]; [cbn [sum_f_R0 pow]; rewrite !bc_k0; ring|]. cbn [sum_f_R0]. rewrite Rmult_plus_distr_l, IH, (bc_pascal m K). cbn [pow]. ring. Qed.
Lemma nb_sum m r K : 0 <= r < 1 -> sum_f_R0 (fun k => bc m k * r ^ k) K <= (/ (1 - r)) ^ S m.
Proof.
  intros Hr. assert (I : 0 < / (1 - r)) by (apply Rinv_0_lt_compat; lra). revert K. induction m as [|m IH]; intros K.
  - rewrite (sum_eq _ (fun k => r ^ k)) by (intros; rewrite bc_0; ring). destruct (Req_dec r 1); [lra|]. rewrite tech3 by lra. cbn [pow]. rewrite Rmult_1_r. unfold Rdiv. rewrite <- (Rmult_1_l (/ (1 - r))) at 2.
    apply Rmult_le_compat_r; [lra|]. pose proof (pow_le r (S K) ltac:(lra)). cbn [pow] in *. lra.
  - pose proof (nb_step m r K) as E. specialize (IH K). pose proof (Rmult_le_pos _ _ (Rlt_le _ _ (bc_pos (S m) K)) (pow_le r (S K) ltac:(lra))) as Q.
    cbn [pow]. cbn [pow] in IH. apply (Rmult_le_reg_l (1 - r)); [lra|]. rewrite E. rewrite <- Rmult_assoc, Rinv_r, Rmult_1_l by lra. lra.
Qed.
Lemma nb_term m r k : 0 <= r < 1 -> bc m k * r ^ k <= (/ (1 - r)) ^ S m.
Proof.
  intros Hr. eapply Rle_trans; [|apply (nb_sum m r k Hr)]. destruct k as [|k]; [cbn [sum_f_R0]; lra|]. cbn [sum_f_R0].
  assert (0 <= sum_f_R0 (fun j => bc m j * r ^ j) k) by (apply cond_pos_sum; intros j; apply Rmult_le_pos; [left; apply bc_pos|apply pow_le; lra]). lra.
Qed.
(** ** size of the coefficients zeta(-j) *)
Lemma bco_odd p : Rabs (bco (2 * p + 1)) = 2 * ReLi (2 * p + 2) 1 / (2 * PI) ^ (2 * p + 2).
Proof.
  pose proof PI_RGT_0 as PP. replace (2 * p + 1)%nat with (S (2 * p)) by lia. cbn [bco]. rewrite Rabs_Ropp, beta_asl. replace (S (S (2 * p))) with (2 * (p + 1))%nat by lia. rewrite asl_even by lia.
  replace (2 * p + 2)%nat with (2 * (p + 1))%nat by lia. pose proof (tpk (2 * (p + 1))) as T. set (D := (2 * PI) ^ (2 * (p + 1))) in *.
  assert (Z : 0 <= ReLi (2 * (p + 1)) 1) by (apply Cot.zeta_le2; lia). set (Z1 := ReLi (2 * (p + 1)) 1) in *.
  replace (-2 * ((-1) ^ (p + 1) * Z1) / D) with ((-1) ^ (p + 1) * (-2 * Z1 / D)) by (unfold Rdiv; ring). rewrite Rabs_mult, pow_1_abs, Rmult_1_l. replace (-2 * Z1 / D) with (- (2 * Z1 / D)) by (unfold Rdiv; ring). rewrite Rabs_Ropp, Rabs_pos_eq; [reflexivity|].
  apply Rdiv_le_0_compat; lra.
Qed.
Lemma bco_even p : (1 <= p)%nat -> bco (2 * p) = 0.
Proof.
  intros Hp. destruct p as [|p]; [lia|]. replace (2 * S p)%nat with (S (2 * p + 1)) by lia. cbn [bco]. rewrite beta_asl. replace (S (S (2 * p + 1))) with (2 * (p + 1) + 1)%nat by lia. rewrite asl_odd by lia. unfold Rdiv. ring.
Qed.

(** ** the terms of the expansion in units of the pole m!/|v|^(m+1) *)
Section T.
Variables (m : nat) (v : C).
Hypothesis Hm : (2 <= m)%nat.
Hypothesis V0 : v <> RtoC 0.
Let x := Cmod v.
Let r := rw v.
Definition PP : R := INR (fact m) / x ^ S m.
Definition TT (k : nat) : R := Cmod (ps (nco m) v k).
Lemma x_pos : 0 < x. Proof. apply Cmod_gt_0. exact V0. Qed.
Lemma r_pos : 0 < r. Proof. unfold r, rw. pose proof PI_RGT_0. apply Rdiv_lt_0_compat; [exact x_pos|lra]. Qed.
Lemma PP_pos : 0 < PP. Proof. unfold PP. apply Rdiv_lt_0_compat; [apply INR_fact_lt_0|apply pow_lt, x_pos]. Qed.
Lemma pole_mod : Cmod (pole m v) = PP.
Proof.
  unfold pole, PP. rewrite Cmod_mult, Cmod_R, Rabs_pos_eq by (left; apply INR_fact_lt_0). rewrite Cmod_inv by (apply Cpow_neq; intros E; apply V0; replace v with (Copp (Copp v)) by ring; rewrite E; ring).
  rewrite Cpow_mod, Cmod_opp. reflexivity.
Qed.
Lemma TT_pos k : 0 <= TT k. Proof. apply Cmod_ge_0. Qed.
Lemma TT_nco k : TT k = Rabs (nco m k) * x ^ k.
Proof. unfold TT, ps. rewrite Cmod_mult, Cmod_R, Cpow_mod. reflexivity. Qed.
Lemma TT_even k : Nat.even (m + k) = true -> TT k = 0.
Proof.
  intros E. rewrite TT_nco. unfold nco. apply Nat.even_spec in E. destruct E as [p E]. rewrite E, bco_even by lia. rewrite !Rmult_0_l, Rabs_R0. ring.
Qed.
Lemma TT_odd k : Nat.even (m + k) = false -> TT k = PP * (2 * ReLi (S (m + k)) 1 * bc m k * r ^ S (m + k)).
Proof.
  intros E. rewrite TT_nco. unfold nco. assert (O : Nat.odd (m + k) = true) by (unfold Nat.odd; rewrite E; reflexivity). apply Nat.odd_spec in O. destruct O as [p O].
  rewrite !Rabs_mult. rewrite O. rewrite bco_odd. rewrite <- O. rewrite (Rabs_pos_eq (INR _)) by apply pos_INR. rewrite (Rabs_pos_eq (inv_fact k)) by (left; apply inv_fact_pos).
  replace (2 * p + 2)%nat with (S (m + k)) by lia. unfold PP, bc, r, rw. fold x. set (Z := ReLi _ 1). pose proof x_pos. pose proof PI_RGT_0.
  replace ((x / (2 * PI)) ^ S (m + k)) with (x ^ k * x ^ S m * / (2 * PI) ^ S (m + k)) by (unfold Rdiv; rewrite (Rpow_mult_distr x), pow_inv, <- pow_add; replace (k + S m)%nat with (S (m + k)) by lia; reflexivity). unfold inv_fact. pose proof (INR_fact_neq_0 m). pose proof (INR_fact_neq_0 k).
  field. repeat split; try assumption; apply pow_nonzero; lra.
Qed.
Lemma zet4 k : (3 <= k)%nat -> 0.99 <= ReLi (S k) 1 <= 1.0824.
Proof.
  intros H. pose proof (zeta_mono 4 (S k) ltac:(lia)) as M. rewrite zeta4 in M. split; [|eapply Rle_trans; [exact M|]; interval].
  pose proof (Properties_F.zeta_range (S k) ltac:(lia)) as B. rewrite Rabs_pos_eq in B by (apply Cot.zeta_le2; lia). lra.
Qed.
Lemma TT_le k : TT k <= PP * (2.165 * bc m k * r ^ S (m + k)).
Proof.
  pose proof PP_pos. pose proof (bc_pos m k). pose proof (pow_lt r (S (m + k)) r_pos).
  assert (0 < bc m k * r ^ S (m + k)) by (apply Rmult_lt_0_compat; assumption).
  destruct (Nat.even (m + k)) eqn:E.
  - rewrite TT_even by exact E. apply Rmult_le_pos; [lra|]. rewrite Rmult_assoc. lra.
  - rewrite TT_odd by exact E. apply Rmult_le_compat_l; [lra|]. rewrite !(Rmult_assoc _ (bc m k)). apply Rmult_le_compat_r; [lra|].
    assert (3 <= m + k)%nat by (destruct (Nat.eq_dec (m + k) 2) as [Q|]; [rewrite Q in E; discriminate|lia]). pose proof (zet4 (m + k) ltac:(assumption)). lra.
Qed.
Lemma TT_sum K : (m <= 15)%nat -> r <= 0.5121 -> sum_f_R0 TT K <= 4.72 * PP.
Proof.
  intros M15 Hr.
  pose proof PP_pos as P0. pose proof r_pos as R0.
  apply Rle_trans with (sum_f_R0 (fun k => (bc m k * r ^ k) * (PP * 2.165 * r ^ S m)) K).
  { apply sum_Rle. intros k _. eapply Rle_trans; [apply TT_le|]. right. replace (S (m + k)) with (S m + k)%nat by lia. rewrite (pow_add r). ring. }
  rewrite <- scal_sum.
  pose proof (nb_sum m r K ltac:(lra)) as B. pose proof (pow_lt r (S m) R0) as RS.
  assert (G : (r * / (1 - r)) ^ S m <= 2.18).
  { assert (A : r * / (1 - r) <= 1.05) by (apply (Rle_div_l r 1.05 (1 - r)); lra). assert (0 < r * / (1 - r)) by (apply Rmult_lt_0_compat; [lra|apply Rinv_0_lt_compat; lra]).
    apply Rle_trans with (1.0497 ^ S m).
    - apply pow_incr. split; [lra|]. apply (Rle_div_l r 1.0497 (1 - r)); lra.
    - apply Rle_trans with (1.0497 ^ 16); [apply Rle_pow; [lra|lia]|lra]. }
  rewrite Rpow_mult_distr in G.
  apply Rle_trans with (PP * 2.165 * r ^ S m * (/ (1 - r)) ^ S m); [apply Rmult_le_compat_l; [|exact B]; apply Rmult_le_pos; lra|].
  replace (PP * 2.165 * r ^ S m * (/ (1 - r)) ^ S m) with (PP * (2.165 * (r ^ S m * (/ (1 - r)) ^ S m))) by ring. rewrite (Rmult_comm 4.72). apply Rmult_le_compat_l; lra.
Qed.
(** the ratio of a term to the one two places before *)
Definition rho (k : nat) : R := r * r * (INR (S (m + k)) * INR (S (S (m + k)))) / (INR (S k) * INR (S (S k))).
Lemma TT_step k : TT (S (S k)) <= rho k * TT k.
Proof.
  destruct (Nat.even (m + k)) eqn:E.
  - rewrite !TT_even; [lra|exact E|]. replace (m + S (S k))%nat with (S (S (m + k))) by lia. exact E.
  - rewrite !TT_odd; [|exact E|replace (m + S (S k))%nat with (S (S (m + k))) by lia; exact E].
    replace (m + S (S k))%nat with (S (S (m + k))) by lia. pose proof PP_pos. pose proof (bc_pos m k). pose proof r_pos.
    assert (BB : bc m (S (S k)) = bc m k * (INR (S (m + k)) * INR (S (S (m + k)))) / (INR (S k) * INR (S (S k)))).
    { unfold bc, inv_fact. replace (m + S (S k))%nat with (S (S (m + k))) by lia. rewrite !fact_simpl, !mult_INR. pose proof (INR_fact_neq_0 m). pose proof (INR_fact_neq_0 k). pose proof (not_0_INR (S k) ltac:(lia)). pose proof (not_0_INR (S (S k)) ltac:(lia)). field. auto. }
    rewrite BB. unfold rho. set (q := INR (S (m + k)) * INR (S (S (m + k))) ) in *. 
    assert (D : 0 < INR (S k) * INR (S (S k))) by (apply Rmult_lt_0_compat; apply lt_0_INR; lia). set (d := INR (S k) * INR (S (S k))) in *.
    assert (Q : 0 <= q) by (apply Rmult_le_pos; apply pos_INR).
    pose proof (zeta_mono (S (m + k)) (S (S (S (m + k)))) ltac:(lia)) as M. set (z1 := ReLi (S (m + k)) 1) in *. set (z2 := ReLi (S (S (S (m + k)))) 1) in *.
    cbn [pow]. pose proof (pow_lt r (m + k) r_pos).
    replace (r * r * q / d * (PP * (2 * z1 * bc m k * (r * r ^ (m + k))))) with (z1 * (PP * (2 * (bc m k * q / d) * (r * (r * (r * r ^ (m + k))))))) by (unfold Rdiv; ring).
    replace (PP * (2 * z2 * (bc m k * q / d) * (r * (r * (r * r ^ (m + k)))))) with (z2 * (PP * (2 * (bc m k * q / d) * (r * (r * (r * r ^ (m + k))))))) by ring.
    apply Rmult_le_compat_r; [|exact M]. apply Rmult_le_pos; [lra|]. apply Rmult_le_pos; [apply Rmult_le_pos; [lra|]; apply Rdiv_le_0_compat; [apply Rmult_le_pos; lra|exact D]|].
    pose proof r_pos as RP. clearbody r. left. apply Rmult_lt_0_compat; [|apply Rmult_lt_0_compat; [|apply Rmult_lt_0_compat]]; assumption.
Qed.
Lemma rho_mono k i : (k <= i)%nat -> rho i <= rho k.
Proof.
  intros H. unfold rho. assert (S1 : forall j, INR (S (m + j)) * INR (S (S (m + j))) / (INR (S j) * INR (S (S j))) = (1 + INR m / INR (S j)) * (1 + INR m / INR (S (S j)))).
  { intros j. pose proof (lt_0_INR (S j) ltac:(lia)). pose proof (lt_0_INR (S (S j)) ltac:(lia)). rewrite (S_INR (m + j)), (S_INR (S (m + j))), (S_INR (m + j)), plus_INR. rewrite (S_INR (S j)), (S_INR j) in *. field. lra. }
  unfold Rdiv. rewrite !(Rmult_assoc (r * r)). unfold Rdiv in S1. rewrite !S1.
  apply Rmult_le_compat_l; [apply Rmult_le_pos; left; apply r_pos|].
  assert (M : forall j l, (0 < j <= l)%nat -> INR m / INR l <= INR m / INR j).
  { intros j l J. apply Rmult_le_compat_l; [apply pos_INR|]. apply Rinv_le_contravar; [apply lt_0_INR; lia|apply le_INR; lia]. }
  assert (Q : forall j, (0 < j)%nat -> 0 <= INR m / INR j) by (intros j J; apply Rdiv_le_0_compat; [apply pos_INR|apply lt_0_INR; exact J]).
  pose proof (M (S k) (S i) ltac:(lia)). pose proof (M (S (S k)) (S (S i)) ltac:(lia)). pose proof (Q (S i) ltac:(lia)). pose proof (Q (S (S i)) ltac:(lia)).
  apply Rmult_le_compat; lra.
Qed.
End T.

(** ** tails of series whose terms decrease by a factor every two places *)
Lemma geo_tail2 (f : nat -> C) (L : C) k s : 0 <= s < 1 -> (forall i, (k <= i)%nat -> Cmod (f (S (S i))) <= s * Cmod (f i)) -> Csums f L ->
  Cmod (Cminus L (Csum f k)) <= (Cmod (f k) + Cmod (f (S k))) / (1 - s).
Proof.
  intros Hs D HL.
  assert (T : forall i, Cmod (Cminus (Csum f (k + i)) (Csum f k)) <= (Cmod (f k) + Cmod (f (S k))) / (1 - s) - (Cmod (f (k + i)%nat) + Cmod (f (S (k + i)))) / (1 - s)).
  { induction i as [|i IH]; [rewrite !Nat.add_0_r; replace (Cminus (Csum f k) (Csum f k)) with (RtoC 0) by ring; rewrite Cmod_0; lra|].
    replace (k + S i)%nat with (S (k + i)) by lia. change (Csum f (S (k + i))) with (Cplus (Csum f (k + i)) (f (k + i)%nat)).
    replace (Cminus (Cplus (Csum f (k + i)) (f (k + i)%nat)) (Csum f k)) with (Cplus (Cminus (Csum f (k + i)) (Csum f k)) (f (k + i)%nat)) by ring.
    eapply Rle_trans; [apply Cmod_triangle|]. pose proof (D (k + i)%nat ltac:(lia)) as Q.
    assert (E : Cmod (f (k + i)%nat) <= (Cmod (f (k + i)%nat) - Cmod (f (S (S (k + i))))) / (1 - s)) by (apply Rle_div_r; lra).
    replace ((Cmod (f k) + Cmod (f (S k))) / (1 - s) - (Cmod (f (S (k + i))) + Cmod (f (S (S (k + i))))) / (1 - s)) with
      ((Cmod (f k) + Cmod (f (S k))) / (1 - s) - (Cmod (f (k + i)%nat) + Cmod (f (S (k + i)))) / (1 - s) + (Cmod (f (k + i)%nat) - Cmod (f (S (S (k + i))))) / (1 - s)) by (field; lra). lra. }
  set (B := (Cmod (f k) + Cmod (f (S k))) / (1 - s)) in *. apply Rnot_lt_le. intros LT.
  destruct (Csums_eps f L HL (Cmod (Cminus L (Csum f k)) - B) ltac:(lra)) as (K0 & HK). specialize (HK (k + K0)%nat ltac:(lia)). specialize (T K0).
  assert (0 <= (Cmod (f (k + K0)%nat) + Cmod (f (S (k + K0)))) / (1 - s)) by (apply Rdiv_le_0_compat; [pose proof (Cmod_ge_0 (f (k + K0)%nat)); pose proof (Cmod_ge_0 (f (S (k + K0)))); lra|lra]).
  pose proof (Cmod_triangle (Cminus L (Csum f (k + K0))) (Cminus (Csum f (k + K0)) (Csum f k))) as TR.
  replace (Cplus (Cminus L (Csum f (k + K0))) (Cminus (Csum f (k + K0)) (Csum f k))) with (Cminus L (Csum f k)) in TR by ring.
  rewrite <- (Cmod_opp (Cminus L (Csum f (k + K0)))) in TR. replace (Copp (Cminus L (Csum f (k + K0)))) with (Cminus (Csum f (k + K0)) L) in TR by ring. lra.
Qed.
(** ** a stopping term is small only where the terms already decrease *)
Lemma pow_late c K k B : 0 < c <= 1 -> (K <= k)%nat -> c ^ K <= B -> c ^ k <= B.
Proof.
  intros Hc HK HB. replace k with (K + (k - K))%nat by lia. rewrite pow_add. eapply Rle_trans; [|exact HB]. rewrite <- (Rmult_1_r (c ^ K)) at 2.
  apply Rmult_le_compat_l; [apply pow_le; lra|]. rewrite <- (pow1 (k - K)). apply pow_incr. lra.
Qed.
Fixpoint zfac (n : nat) : Z := match n with O => 1 | S k => Z.of_nat n * zfac k end.
Lemma zfac_ok n : IZR (zfac n) = INR (fact n).
Proof. induction n as [|n IH]; [reflexivity|]. cbn [zfac]. rewrite fact_simpl, mult_INR, mult_IZR, IH, <- INR_IZR_INZ. reflexivity. Qed.
Definition ckb (m k : nat) : bool :=
  if Nat.even (m + k) then true else
  let h := Z.of_nat (Nat.div2 (S (m + k))) in let a := (55 * (Z.of_nat (S k) * Z.of_nat (S (S k))))%Z in let b := (100 * (Z.of_nat (S (m + k)) * Z.of_nat (S (S (m + k)))))%Z in
  (582 * (zfac m * zfac k * b ^ h) <=? 198 * (zfac (m + k) * (a ^ h * 2 ^ 52)))%Z.
Lemma ckb_all : forallb (fun m => forallb (ckb m) (seq 1 34)) (seq 2 14) = true.
Proof. vm_compute. reflexivity. Qed.
Lemma ckb_ok m k : (2 <= m <= 15)%nat -> (1 <= k <= 34)%nat -> Nat.even (m + k) = false ->
  5.82 / 2 ^ 52 <= 1.98 * bc m k * (0.55 * (INR (S k) * INR (S (S k))) / (INR (S (m + k)) * INR (S (S (m + k))))) ^ Nat.div2 (S (m + k)).
Proof.
  intros Hm Hk E. pose proof ckb_all as A. rewrite forallb_forall in A. specialize (A m ltac:(apply in_seq; lia)). rewrite forallb_forall in A. specialize (A k ltac:(apply in_seq; lia)).
  unfold ckb in A. rewrite E in A. cbv zeta in A. apply Z.leb_le in A. apply IZR_le in A. rewrite !mult_IZR, <- !pow_IZR, !mult_IZR, !zfac_ok, <- !INR_IZR_INZ in A.
  set (h := Nat.div2 (S (m + k))) in *. unfold bc, inv_fact.
  pose proof (INR_fact_lt_0 m) as Fm. pose proof (INR_fact_lt_0 k) as Fk. pose proof (INR_fact_lt_0 (m + k)) as Fj. set (fm := INR (fact m)) in *. set (fk := INR (fact k)) in *. set (fj := INR (fact (m + k))) in *.
  assert (P1 : 0 < INR (S k) * INR (S (S k))) by (apply Rmult_lt_0_compat; apply lt_0_INR; lia). assert (P2 : 0 < INR (S (m + k)) * INR (S (S (m + k)))) by (apply Rmult_lt_0_compat; apply lt_0_INR; lia).
  set (p1 := INR (S k) * INR (S (S k))) in *. set (p2 := INR (S (m + k)) * INR (S (S (m + k)))) in *.
  replace 0.55 with (55 * / 100) by lra. replace 1.98 with (198 * / 100) by lra. replace (55 * / 100 * p1 / p2) with (55 * p1 * / (100 * p2)) by (field; lra). rewrite (Rpow_mult_distr (55 * p1)), pow_inv.
  assert (B : 0 < (100 * p2) ^ h) by (apply pow_lt; lra). set (b := (100 * p2) ^ h) in *. set (a := (55 * p1) ^ h) in *. change (IZR 2) with 2 in A. change (2 ^ 52)%Z with 4503599627370496%Z in A.
  replace (198 * / 100 * (fj * / fk * / fm) * (a * / b)) with ((198 * (fj * (a * 4503599627370496))) * / (fm * fk * b) * / (100 * 4503599627370496)) by (field; repeat split; lra).
  assert (D : 0 < fm * fk * b) by (apply Rmult_lt_0_compat; [apply Rmult_lt_0_compat; assumption|assumption]).
  apply (Rmult_le_compat_r (/ (fm * fk * b))) in A; [|left; apply Rinv_0_lt_compat; exact D]. rewrite Rmult_assoc, Rinv_r, Rmult_1_r in A by lra.
  apply (Rmult_le_compat_r (/ (100 * 4503599627370496))) in A; [|lra]. eapply Rle_trans; [|exact A]. lra.
Qed.

(** ** Li_unity_neg with the reason why its loop stopped *)
Section Ng.
Variable e : R.
Variable q : option R -> option R -> bool.
Hypothesis Hq : zero_exact q.
Notation N := (NumQ e q).
Variables (zc : Z -> R) (f : nat -> R) (m : nat) (v : C).
Hypothesis Hm : (1 <= m <= 259)%nat.
Hypothesis Hz : zvals e zc 0.
Hypothesis Hze : forall m, (m < 0)%Z -> Z.even m = true -> zc m = 0.
Hypothesis Hf : forall k, inv_fac (NumR e) (Z.of_nat k) = Val (Some (f k)).
Hypothesis Hf0 : f 0%nat = 1.
Notation nt := (nterm zc f m v).
Lemma eflip k : Z.even (- Z.of_nat m - Z.of_nat (S k)) = negb (Z.even (- Z.of_nat m - Z.of_nat k)).
Proof. exact (even_flip e f m Hm Hf k). Qed.
Lemma neg_loop_stop (a : C) fuel : forall k w, (1 <= k <= 261)%nat -> Z.even (- Z.of_nat m - Z.of_nat k) = false ->
  Li_unity_neg_loop N fuel (- Z.of_nat m) (Z.of_nat k) (ofC e (Cmult v v)) (ofC e (Cpow v k)) (ofC e (Cplus a (Csum nt k))) = Val w ->
  exists K, (1 <= K <= 261)%nat /\ Z.even (- Z.of_nat m - Z.of_nat K) = false /\
    ((w = ofC e (Cplus a (Csum nt K)) /\ (261 <= m + K)%nat) \/
     (w = ofC e (Cplus a (Csum nt (K + 2))) /\ ceqb N (ofC e (Cplus a (Csum nt (K + 2)))) (ofC e (Cplus a (Csum nt K))) = true)).
Proof.
  induction fuel as [|fl IH]; intros k w Hk Hp H; [discriminate|]. cbn [Li_unity_neg_loop] in H.
  rewrite i64_ok in H by (unfold INT64_MIN, INT64_MAX; lia). cbn [bind] in H. change (zeta N) with (zeta (NumR e)) in H.
  destruct (Z_le_gt_dec (- Z.of_nat m - Z.of_nat k) (-261)) as [G|G].
  - rewrite zeta_none in H by (try (rewrite even_Zeven; exact Hp); unfold is_int64, INT64_MIN, INT64_MAX; lia). cbn [bind] in H.
    change (inv_fac N) with (inv_fac (NumR e)) in H. rewrite Hf in H. cbn [bind] in H. cbv zeta in H.
    replace (is_finite N (cmul_rc N (mul N None (Some (f k))) (ofC e (Cpow v k)))) with false in H by reflexivity. cbn [negb] in H. injection H as <-.
    exists k. split; [lia|]. split; [exact Hp|]. left. split; [reflexivity|lia].
  - rewrite Hz in H by lia. cbn [bind] in H. change (inv_fac N) with (inv_fac (NumR e)) in H. rewrite Hf in H. cbn [bind] in H. cbv zeta in H.
    assert (T : cmul_rc N (mul N (Some (zc (- Z.of_nat m - Z.of_nat k)%Z)) (Some (f k))) (ofC e (Cpow v k)) = ofC e (nt k)) by exact (ofC_mul_rc e _ _).
    rewrite T in H. replace (is_finite N (ofC e (nt k))) with true in H by reflexivity. cbn [negb] in H.
    replace (cadd N (ofC e (Cplus a (Csum nt k))) (ofC e (nt k))) with (ofC e (Cplus a (Csum nt (k + 2))) : cpx N) in H.
    2:{ replace (k + 2)%nat with (S (S k)) by lia. cbn [Csum]. rewrite (nterm_0 e zc f m v Hm Hze Hf (S k)) by (try lia; rewrite eflip, Hp; reflexivity).
        transitivity (ofC e (Cplus (Cplus a (Csum nt k)) (nt k)) : cpx N); [f_equal; ring|reflexivity]. }
    rewrite i64_ok in H by (unfold INT64_MIN, INT64_MAX; lia). cbn [bind] in H.
    match type of H with (if ?b then _ else _) = _ => destruct b eqn:B end.
    + injection H as <-. exists k. split; [lia|]. split; [exact Hp|]. right. split; [reflexivity|exact B].
    + replace (Z.of_nat k + 2)%Z with (Z.of_nat (k + 2)) in H by lia.
      replace (cmul N (ofC e (Cpow v k)) (ofC e (Cmult v v))) with (ofC e (Cpow v (k + 2)) : cpx N) in H.
      2:{ replace (k + 2)%nat with (S (S k)) by lia. cbn [Cpow]. transitivity (ofC e (Cmult (Cpow v k) (Cmult v v)) : cpx N); [f_equal; ring|reflexivity]. }
      apply (IH (k + 2)%nat) in H; [exact H|lia|]. replace (k + 2)%nat with (S (S k)) by lia. rewrite !eflip, Hp. reflexivity.
Qed.
Lemma unity_neg_stop fuel (z : C) w : Li_clog (NumR e) (ofC e z) = ofC e v -> v <> RtoC 0 -> Li_unity_neg N fuel (- Z.of_nat m) (ofC e z) = Val w ->
  exists K, (1 <= K <= 261)%nat /\ Z.even (- Z.of_nat m - Z.of_nat K) = false /\
    ((w = ofC e (Cplus (pole m v) (Csum nt K)) /\ (261 <= m + K)%nat) \/
     (w = ofC e (Cplus (pole m v) (Csum nt (K + 2))) /\ ceqb N (ofC e (Cplus (pole m v) (Csum nt (K + 2)))) (ofC e (Cplus (pole m v) (Csum nt K))) = true)).
Proof.
  intros V V0 H. unfold Li_unity_neg in H. cbv zeta in H. rewrite (clogQ e q Hq), V in H.
  rewrite !i64_ok in H by (unfold INT64_MIN, INT64_MAX; lia). cbn [bind] in H.
  change (copp N (ofC e v)) with (copp (NumR e) (ofC e v)) in H. rewrite ofC_opp in H. replace (- Z.of_nat m - 1)%Z with (- Z.of_nat (S m))%Z in H by lia.
  rewrite (stable_pow_ok e q) in H; [|exact Hq| |unfold is_int64, INT64_MIN, INT64_MAX; lia].
  2:{ intros E. apply V0. replace v with (Copp (Copp v)) by ring. rewrite E. ring. }
  cbn [bind] in H. unfold pole. set (P := Cinv (Cpow (Copp v) (S m))) in *.
  assert (G : ntgamma N (ofZ N (1 - - Z.of_nat m)) = Some (INR (fact m))).
  { cbn [ntgamma ofZ NumQ NumR]. unfold otgamma. rewrite Zfloor_IZR. destruct (Req_EM_T _ _) as [_|D]; [|contradiction]. destruct (Z.leb_spec 1 (1 - - Z.of_nat m)); [|lia].
    do 3 f_equal. lia. }
  rewrite G in H. replace (cmul_rc N (Some (INR (fact m))) (ofC e P)) with (ofC e (Cmult (RtoC (INR (fact m))) P) : cpx N) in H by (symmetry; exact (ofC_mul_rc e _ _)).
  set (a := Cmult (RtoC (INR (fact m))) P) in *. rewrite even_Zeven in H.
  change (cmul N (ofC e v) (ofC e v)) with (cmul (NumR e) (ofC e v) (ofC e v)) in H. rewrite ofC_mul in H.
  destruct (Z.even (- Z.of_nat m)) eqn:E.
  - apply (neg_loop_stop a fuel 1 w); [lia|change 1%nat with (S 0); rewrite eflip; cbn [Z.of_nat]; rewrite Z.sub_0_r, E; reflexivity|].
    change (Z.of_nat 1) with 1%Z. replace (Cpow v 1) with v by (cbn [Cpow]; ring). cbn [Csum]. rewrite (nterm_0 e zc f m v Hm Hze Hf 0) by (try lia; cbn [Z.of_nat]; rewrite Z.sub_0_r; exact E).
    replace (Cplus a (Cplus (RtoC 0) (RtoC 0))) with a by ring. exact H.
  - change (zeta N) with (zeta (NumR e)) in H. rewrite Hz in H by lia. cbn [bind] in H.
    apply (neg_loop_stop a fuel 2 w); [lia|rewrite !eflip; cbn [Z.of_nat]; rewrite Z.sub_0_r, E; reflexivity|].
    change (Z.of_nat 2) with 2%Z. replace (Cpow v 2) with (Cmult v v) by (cbn [Cpow]; ring). cbn [Csum]. rewrite (nterm_0 e zc f m v Hm Hze Hf 1) by (try lia; change 1%nat with (S 0); rewrite eflip; cbn [Z.of_nat]; rewrite Z.sub_0_r, E; reflexivity).
    replace (ofC e (Cplus a (Cplus (Cplus (RtoC 0) (nt 0%nat)) (RtoC 0))) : cpx N) with (cadd_cr N (ofC e a) (Some (zc (- Z.of_nat m)%Z))); [exact H|].
    transitivity (ofC e (Cplus a (RtoC (zc (- Z.of_nat m)%Z))) : cpx N); [exact (ofC_add_cr e _ _)|]. f_equal. unfold nterm. cbn [Z.of_nat Cpow]. rewrite Z.sub_0_r, Hf0, Rmult_1_r. ring.
Qed.
End Ng.

(** ** accuracy of Li_unity_neg *)
Section Un.
Variables (zc : Z -> R) (f : nat -> R) (m : nat) (v : C).
Hypothesis Hm0 : (2 <= m <= 60)%nat.
Hypothesis V0 : v <> RtoC 0.
Hypothesis ZA : zacc zc.
Hypothesis FA : forall k, (k <= 177)%nat -> Rabs (f k - inv_fact k) <= 6 / 10 ^ 17 * inv_fact k.
Hypothesis FB : forall k, (178 <= k)%nat -> f k = 0.
Notation nt := (nterm zc f m v).
Notation tt := (ps (nco m) v).
Notation P := (PP m v).
Lemma zeven_nat k : Z.even (- Z.of_nat m - Z.of_nat k) = Nat.even (m + k).
Proof. replace (- Z.of_nat m - Z.of_nat k)%Z with (- Z.of_nat (m + k))%Z by lia. rewrite Z.even_opp. destruct (Nat.even (m + k)) eqn:E.
  - apply Nat.even_spec in E. destruct E as [p E]. apply Z.even_spec. exists (Z.of_nat p). lia.
  - assert (O : Nat.odd (m + k) = true) by (unfold Nat.odd; rewrite E; reflexivity). apply Nat.odd_spec in O. destruct O as [p O]. rewrite <- Z.negb_odd. apply negb_false_iff. apply Z.odd_spec. exists (Z.of_nat p). lia.
Qed.
Lemma nt_even k : Nat.even (m + k) = true -> nt k = RtoC 0.
Proof. intros E. unfold nterm. destruct ZA as (_ & _ & _ & Z4). rewrite Z4 by (try lia; rewrite zeven_nat; exact E). rewrite Rmult_0_l. ring. Qed.
Lemma tt_even k : Nat.even (m + k) = true -> tt k = RtoC 0.
Proof. intros E. apply Cmod_eq_0. apply (TT_even m v (proj1 Hm0)). exact E. Qed.
Lemma nt_dev k : (k <= 177)%nat -> Cmod (Cminus (nt k) (tt k)) <= 1.3e-16 * TT m v k.
Proof.
  intros Hk. destruct (Nat.even (m + k)) eqn:E.
  - rewrite nt_even, tt_even by exact E. replace (Cminus (RtoC 0) (RtoC 0)) with (RtoC 0) by ring. rewrite Cmod_0. pose proof (TT_pos m v k). lra.
  - unfold nterm, ps. rewrite TT_nco. replace (Cminus (Cmult (RtoC (zc (- Z.of_nat m - Z.of_nat k)%Z * f k)) (Cpow v k)) (Cmult (RtoC (nco m k)) (Cpow v k))) with (Cmult (RtoC (zc (- Z.of_nat m - Z.of_nat k)%Z * f k - nco m k)) (Cpow v k)) by (rewrite RtoC_minus; ring).
    rewrite Cmod_mult, Cmod_R, Cpow_mod. rewrite <- Rmult_assoc. apply Rmult_le_compat_r; [apply pow_le, Cmod_ge_0|].
    assert (O : Nat.odd (m + k) = true) by (unfold Nat.odd; rewrite E; reflexivity). apply Nat.odd_spec in O. destruct O as [p O].
    destruct ZA as (_ & _ & Z3 & _). specialize (Z3 bern (S p) bern_is_bernoulli ltac:(lia)). replace (1 - 2 * Z.of_nat (S p))%Z with (- Z.of_nat m - Z.of_nat k)%Z in Z3 by lia. replace (2 * S p)%nat with (S (m + k)) in Z3 by lia.
    set (Zt := - bern (S (m + k)) / INR (S (m + k))) in *.
    assert (NE : nco m k = Zt * inv_fact k).
    { unfold nco, Zt. replace (bco (m + k)) with (- beta (S (m + k))) by (rewrite O; replace (2 * p + 1)%nat with (S (2 * p)) by lia; reflexivity). unfold beta, inv_fact. rewrite fact_simpl, mult_INR.
      pose proof (INR_fact_neq_0 (m + k)). pose proof (INR_fact_neq_0 k). pose proof (not_0_INR (S (m + k)) ltac:(lia)). field. auto. }
    rewrite NE. specialize (FA k Hk). pose proof (inv_fact_pos k) as IP. rewrite Rabs_mult, (Rabs_pos_eq (inv_fact k)) by lra. set (c := zc _) in *. set (g := f k) in *. set (F := inv_fact k) in *.
    replace (c * g - Zt * F) with ((c - Zt) * (g - F) + (c - Zt) * F + Zt * (g - F)) by ring.
    eapply Rle_trans; [apply Rabs_triang|]. eapply Rle_trans; [apply Rplus_le_compat_r, Rabs_triang|]. rewrite !Rabs_mult, (Rabs_pos_eq F) by lra.
    pose proof (Rabs_pos Zt) as Z0. set (A := Rabs Zt) in *. pose proof (Rabs_pos (c - Zt)). pose proof (Rabs_pos (g - F)).
    pose proof (Rmult_le_compat _ _ _ _ (Rabs_pos _) (Rabs_pos _) Z3 FA) as Q1. pose proof (Rmult_le_compat_r F _ _ (Rlt_le _ _ IP) Z3) as Q2. pose proof (Rmult_le_compat_l A _ _ Z0 FA) as Q3.
    replace (60 / 10 ^ 18 * A * (6 / 10 ^ 17 * F)) with (36 / 10 ^ 34 * (A * F)) in Q1 by field. replace (60 / 10 ^ 18 * A * F) with (6 / 10 ^ 17 * (A * F)) in Q2 by field. replace (A * (6 / 10 ^ 17 * F)) with (6 / 10 ^ 17 * (A * F)) in Q3 by field.
    assert (0 <= A * F) by (apply Rmult_le_pos; lra). replace (1.3e-16 * (A * F)) with (13 / 10 ^ 17 * (A * F)) by (unfold Rdiv; lra). lra.
Qed.
Hypothesis Hm : (2 <= m <= 15)%nat.
Hypothesis Hr : rw v <= 0.5121.
Lemma sum_dev K : (K <= 178)%nat -> Cmod (Cminus (Csum nt K) (Csum tt K)) <= 6.2e-16 * P.
Proof.
  intros HK. pose proof (PP_pos m v V0) as P0. rewrite Csum_minus. destruct K as [|K]; [cbn [Csum]; rewrite Cmod_0; lra|].
  eapply Rle_trans; [apply Csum_mod|]. apply Rle_trans with (sum_f_R0 (fun k => TT m v k * 1.3e-16) K).
  - apply sum_Rle. intros k Hk. rewrite Rmult_comm. apply nt_dev. lia.
  - rewrite <- scal_sum. pose proof (TT_sum m v (proj1 Hm) V0 K (proj2 Hm) Hr). lra.
Qed.
Lemma sum_bd K : (K <= 178)%nat -> Cmod (Csum nt K) <= 4.73 * P.
Proof.
  intros HK. pose proof (PP_pos m v V0) as P0. pose proof (sum_dev K HK) as D. replace (Csum nt K) with (Cplus (Cminus (Csum nt K) (Csum tt K)) (Csum tt K)) by ring.
  eapply Rle_trans; [apply Cmod_triangle|]. assert (B : Cmod (Csum tt K) <= 4.72 * P); [|lra].
  destruct K as [|K]; [cbn [Csum]; rewrite Cmod_0; lra|]. eapply Rle_trans; [apply Csum_mod|]. apply (TT_sum m v (proj1 Hm) V0 K (proj2 Hm) Hr).
Qed.
Lemma rho_late k : (35 <= k)%nat -> rho m v k <= 0.55.
Proof.
  intros Hk. pose proof (r_pos v V0) as R0. unfold rho. set (r := rw v) in *. assert (R2 : r * r <= 0.26225) by nra.
  assert (D : 0 < INR (S k) * INR (S (S k))) by (apply Rmult_lt_0_compat; apply lt_0_INR; lia). apply Rle_div_l; [exact D|].
  assert (M : INR m <= 15) by (replace 15 with (INR 15) by (cbn; lra); apply le_INR; lia). assert (KK : 35 <= INR k) by (replace 35 with (INR 35) by (cbn; lra); apply le_INR; lia).
  rewrite (S_INR (S (m + k))), (S_INR (S k)), (S_INR (m + k)), (S_INR k), plus_INR in *. pose proof (pos_INR m).
  apply Rle_trans with (0.26225 * ((INR m + INR k + 1) * (INR m + INR k + 1 + 1))); [apply Rmult_le_compat_r; [apply Rmult_le_pos; lra|exact R2]|].
  assert ((INR m + INR k + 1) * (INR m + INR k + 1 + 1) <= (INR k + 16) * (INR k + 17)) by (apply Rmult_le_compat; lra). nra.
Qed.
Lemma rho_stop k : (1 <= k)%nat -> Nat.even (m + k) = false -> TT m v k < 5.82 / 2 ^ 52 * P -> rho m v k <= 0.55.
Proof.
  intros Hk E T. destruct (le_lt_dec 35 k) as [L|L]; [apply rho_late; exact L|]. apply Rnot_lt_le. intros G.
  pose proof (ckb_ok m k Hm ltac:(lia) E) as C. pose proof (PP_pos m v V0) as P0. pose proof (r_pos v V0) as R0.
  assert (O : Nat.odd (m + k) = true) by (unfold Nat.odd; rewrite E; reflexivity). apply Nat.odd_spec in O. destruct O as [p O].
  rewrite (TT_odd m v (proj1 Hm) V0) in T by exact E. set (h := Nat.div2 (S (m + k))) in *. assert (HH : S (m + k) = (2 * h)%nat) by (unfold h; rewrite O; replace (S (2 * p + 1)) with (2 * (S p))%nat by lia; rewrite Nat.div2_double; reflexivity).
  rewrite HH in T at 2. rewrite pow_mult in T. unfold rho in G. set (r := rw v) in *.
  assert (D : 0 < INR (S k) * INR (S (S k))) by (apply Rmult_lt_0_compat; apply lt_0_INR; lia). assert (D2 : 0 < INR (S (m + k)) * INR (S (S (m + k)))) by (apply Rmult_lt_0_compat; apply lt_0_INR; lia).
  set (d := INR (S k) * INR (S (S k))) in *. set (d2 := INR (S (m + k)) * INR (S (S (m + k)))) in *.
  assert (S2 : 0.55 * d / d2 <= r ^ 2). { apply Rle_div_l; [exact D2|]. apply (Rlt_div_r 0.55 (r * r * d2) d) in G; [|exact D]. cbn [pow]. lra. }
  assert (S3 : (0.55 * d / d2) ^ h <= (r ^ 2) ^ h) by (apply pow_incr; split; [apply Rdiv_le_0_compat; lra|exact S2]).
  assert (J3 : (3 <= m + k)%nat) by lia. pose proof (zet4 m (proj1 Hm) (m + k) J3) as Z. pose proof (bc_pos m k) as B0.
  assert (Y0 : 0 <= (0.55 * d / d2) ^ h) by (apply pow_le, Rdiv_le_0_compat; lra).
  assert (L1 : 1.98 * bc m k * (0.55 * d / d2) ^ h <= 2 * ReLi (S (m + k)) 1 * bc m k * (r ^ 2) ^ h).
  { apply Rmult_le_compat; [apply Rmult_le_pos; lra|exact Y0|apply Rmult_le_compat_r; lra|exact S3]. }
  assert (P * (5.82 / 2 ^ 52) <= P * (2 * ReLi (S (m + k)) 1 * bc m k * (r ^ 2) ^ h)) by (apply Rmult_le_compat_l; [lra|eapply Rle_trans; [exact C|exact L1]]). lra.
Qed.
Lemma TT_late k : (178 <= k)%nat -> TT m v k <= 1e-18 * P.
Proof.
  intros Hk. eapply Rle_trans; [apply (TT_le m v (proj1 Hm) V0)|]. rewrite (Rmult_comm 1e-18). pose proof (PP_pos m v V0) as P0. pose proof (r_pos v V0) as R0. apply Rmult_le_compat_l; [lra|]. set (r := rw v) in *.
  pose proof (nb_term m 0.75 k ltac:(lra)) as B. replace (/ (1 - 0.75)) with 4 in B by lra.
  assert (B2 : 4 ^ S m <= 4 ^ 16) by (apply Rle_pow; [lra|lia]). pose proof (bc_pos m k) as B0.
  replace (S (m + k)) with (S m + k)%nat by lia. rewrite pow_add.
  assert (R1 : r ^ S m <= 1) by (rewrite <- (pow1 (S m)); apply pow_incr; lra). pose proof (pow_lt r (S m) R0).
  assert (R2 : r ^ k <= 0.75 ^ k * 0.6829 ^ k) by (rewrite <- Rpow_mult_distr; apply pow_incr; split; [lra|lra]).
  assert (R3 : 0.6829 ^ k <= 1e-29) by (apply (pow_late 0.6829 178 k); [lra|exact Hk|interval]).
  pose proof (pow_lt 0.6829 k ltac:(lra)). pose proof (pow_lt 0.75 k ltac:(lra)). pose proof (pow_lt r k R0).
  assert (X1 : bc m k * r ^ k <= 4 ^ 16 * 1e-29).
  { apply Rle_trans with (bc m k * 0.75 ^ k * 0.6829 ^ k); [rewrite Rmult_assoc; apply Rmult_le_compat_l; [lra|exact R2]|]. apply Rmult_le_compat; [apply Rmult_le_pos; lra|lra|lra|exact R3]. }
  assert (X0 : 0 <= bc m k * r ^ k) by (apply Rmult_le_pos; lra).
  replace (2.165 * bc m k * (r ^ S m * r ^ k)) with (2.165 * (r ^ S m * (bc m k * r ^ k))) by ring.
  assert (r ^ S m * (bc m k * r ^ k) <= 1 * (4 ^ 16 * 1e-29)) by (apply Rmult_le_compat; lra). lra.
Qed.
Lemma unity_neg_acc e q t fuel (z : C) w : zero_exact q -> stop_test q t -> 0 <= t <= / 2 ^ 52 -> f 0%nat = 1 -> zvals e zc 0 -> (forall k, inv_fac (NumR e) (Z.of_nat k) = Val (Some (f k))) ->
  Cmod v < 2 * PI -> Li_clog (NumR e) (ofC e z) = ofC e v -> Li_unity_neg (NumQ e q) fuel (- Z.of_nat m) (ofC e z) = Val w ->
  exists y, w = ofC e y /\ Cmod (Cminus y (Li_neg m (Cexp v))) <= (8 * t + 7e-16) * P.
Proof.
  intros Hq Ht T0 F0 ZV FV VP LV H. pose proof (PP_pos m v V0) as P0.
  pose proof (neg_expansion m v V0 VP) as SM. set (L := Cminus (Li_neg m (Cexp v)) (pole m v)) in *.
  assert (RE : forall s, Cminus (Cplus (pole m v) s) (Li_neg m (Cexp v)) = Copp (Cminus L s)) by (intros s; unfold L; ring).
  assert (TL : forall k, (1 <= k)%nat -> rho m v k <= 0.55 -> Cmod (Cminus L (Csum tt k)) <= (TT m v k + TT m v (S k)) / 0.45).
  { intros k K1 RK. replace 0.45 with (1 - 0.55) by lra. apply (geo_tail2 tt L k 0.55); [lra| |exact SM].
    intros i Hi. eapply Rle_trans; [apply (TT_step m v (proj1 Hm) V0)|]. apply Rmult_le_compat_r; [apply Cmod_ge_0|]. eapply Rle_trans; [apply (rho_mono m v (proj1 Hm) V0 k i Hi)|exact RK]. }
  assert (tP : 0 <= t * P) by (apply Rmult_le_pos; lra).
  assert (LATE : forall k, (178 <= k)%nat -> exists y, ofC e (Cplus (pole m v) (Csum nt k)) = ofC e y /\ Cmod (Cminus y (Li_neg m (Cexp v))) <= (8 * t + 7e-16) * P).
  { intros k Hk. exists (Cplus (pole m v) (Csum nt k)). split; [reflexivity|]. rewrite RE, Cmod_opp.
    assert (E : Csum nt k = Csum nt 178).
    { replace k with (178 + (k - 178))%nat by lia. induction (k - 178)%nat as [|i IH]; [rewrite Nat.add_0_r; reflexivity|]. replace (178 + S i)%nat with (S (178 + i)) by lia. 
      change (Csum nt (S (178 + i))) with (Cplus (Csum nt (178 + i)) (nt (178 + i)%nat)). rewrite IH. unfold nterm at 2. rewrite FB by lia. rewrite Rmult_0_r. ring. }
    rewrite E. replace (Cminus L (Csum nt 178)) with (Cplus (Cminus L (Csum tt 178)) (Copp (Cminus (Csum nt 178) (Csum tt 178)))) by ring.
    eapply Rle_trans; [apply Cmod_triangle|]. rewrite Cmod_opp. pose proof (sum_dev 178 ltac:(lia)) as D. pose proof (TL 178%nat ltac:(lia) (rho_late 178 ltac:(lia))) as TL1.
    pose proof (TT_late 178 ltac:(lia)) as A1. pose proof (TT_late 179 ltac:(lia)) as A2. lra. }
  destruct (unity_neg_stop e q Hq zc f m v ltac:(lia) ZV ltac:(apply ZA) FV F0 fuel z w LV V0 H) as (K & HK & PK & [(-> & LK) | (-> & CE)]).
  - apply LATE. lia.
  - destruct (le_lt_dec 178 K) as [LK|LK]; [apply LATE; lia|].
    exists (Cplus (pole m v) (Csum nt (K + 2))). split; [reflexivity|]. rewrite RE, Cmod_opp. rewrite zeven_nat in PK.
    apply (ceqb_tol e q t) in CE; [|exact Ht|lra]. replace (K + 2)%nat with (S (S K)) in CE |- * by lia.
    assert (E1 : forall g : nat -> C, g (S K) = RtoC 0 -> Csum g (S (S K)) = Csum g (S K)) by (intros g G; change (Csum g (S (S K))) with (Cplus (Csum g (S K)) (g (S K))); rewrite G; ring).
    assert (PS : Nat.even (m + S K) = true) by (replace (m + S K)%nat with (S (m + K)) by lia; rewrite Nat.even_succ; unfold Nat.odd; rewrite PK; reflexivity).
    rewrite (E1 nt) in * by (apply nt_even; exact PS).
    replace (Cminus (Cplus (pole m v) (Csum nt (S K))) (Cplus (pole m v) (Csum nt K))) with (nt K) in CE by (cbn [Csum]; ring).
    assert (B1 : Cmod (Cplus (pole m v) (Csum nt K)) <= 5.73 * P) by (eapply Rle_trans; [apply Cmod_triangle|]; rewrite (pole_mod m v V0); pose proof (sum_bd K ltac:(lia)); lra).
    assert (CE2 : Cmod (nt K) <= 5.73 * (t * P)) by (eapply Rle_trans; [exact CE|]; replace (5.73 * (t * P)) with (t * (5.73 * P)) by ring; apply Rmult_le_compat_l; lra).
    pose proof (nt_dev K ltac:(lia)) as ND.
    assert (TK : TT m v K <= 5.74 * (t * P)).
    { assert (TT m v K <= Cmod (nt K) + 1.3e-16 * TT m v K); [|lra]. unfold TT at 1. replace (tt K) with (Cplus (nt K) (Copp (Cminus (nt K) (tt K)))) by ring. eapply Rle_trans; [apply Cmod_triangle|]. rewrite Cmod_opp. lra. }
    assert (RK : rho m v K <= 0.55).
    { apply rho_stop; [lia|exact PK|]. assert (t * P <= / 2 ^ 52 * P) by (apply Rmult_le_compat_r; lra). assert (0 < / 2 ^ 52 * P) by (apply Rmult_lt_0_compat; [apply Rinv_0_lt_compat; lra|lra]). unfold Rdiv. lra. }
    pose proof (TL (S (S K)) ltac:(lia) ltac:(eapply Rle_trans; [apply (rho_mono m v (proj1 Hm) V0 K); lia|exact RK])) as TL1.
    rewrite (E1 tt) in TL1 by (apply tt_even; exact PS).
    assert (T2 : TT m v (S (S K)) <= 0.55 * TT m v K) by (eapply Rle_trans; [apply (TT_step m v (proj1 Hm) V0)|]; apply Rmult_le_compat_r; [apply TT_pos|exact RK]).
    rewrite (TT_even m v (proj1 Hm) (S (S (S K)))) in TL1 by (replace (m + S (S (S K)))%nat with (S (S (m + S K))) by lia; exact PS).
    replace (Cminus L (Csum nt (S K))) with (Cplus (Cminus L (Csum tt (S K))) (Copp (Cminus (Csum nt (S K)) (Csum tt (S K))))) by ring.
    eapply Rle_trans; [apply Cmod_triangle|]. rewrite Cmod_opp. pose proof (sum_dev (S K) ltac:(lia)) as D. lra.
Qed.
End Un.

(** ** the power series sum k^m z^k *)
Section Sr.
Variables (m : nat) (x : R).
Hypothesis Hm : (2 <= m <= 15)%nat.
Hypothesis Hx : 0 < x < 0.513.
Definition an (k : nat) : R := INR (S k) ^ m * x ^ S k.
Definition rat (k : nat) : R := x * (INR (S (S k)) / INR (S k)) ^ m.
Lemma an_pos k : 0 < an k. Proof. unfold an. apply Rmult_lt_0_compat; apply pow_lt; [apply lt_0_INR; lia|lra]. Qed.
Lemma an_step k : an (S k) = rat k * an k.
Proof. unfold an, rat, Rdiv. rewrite Rpow_mult_distr, pow_inv. change (x ^ S (S k)) with (x * x ^ S k). pose proof (pow_lt (INR (S k)) m (lt_0_INR _ (Nat.lt_0_succ k))). field. lra. Qed.
Lemma quo k : INR (S (S k)) / INR (S k) = 1 + / INR (S k).
Proof. rewrite (S_INR (S k)). pose proof (lt_0_INR (S k) (Nat.lt_0_succ k)). field. lra. Qed.
Lemma rat_mono k i : (k <= i)%nat -> rat i <= rat k.
Proof.
  intros H. unfold rat. apply Rmult_le_compat_l; [lra|]. rewrite !quo. pose proof (lt_0_INR (S k) (Nat.lt_0_succ k)). pose proof (le_INR (S k) (S i) ltac:(lia)).
  apply pow_incr. split; [pose proof (Rinv_0_lt_compat (INR (S i)) ltac:(lra)); lra|]. apply Rplus_le_compat_l, Rinv_le_contravar; assumption.
Qed.
Lemma rat_late k : (33 <= k)%nat -> rat k <= 0.8.
Proof.
  intros H. eapply Rle_trans; [apply (rat_mono 33); exact H|]. unfold rat. rewrite quo. replace (INR 34) with 34 by (cbn; lra).
  assert ((1 + / 34) ^ m <= (1 + / 34) ^ 15) by (apply Rle_pow; [lra|lia]). assert ((1 + / 34) ^ 15 <= 1.5449) by interval. pose proof (pow_lt (1 + / 34) m ltac:(lra)).
  apply Rle_trans with (0.513 * 1.5449); [apply Rmult_le_compat; lra|lra].
Qed.
Fixpoint asum (K : nat) : R := match K with O => 0 | S k => asum k + an k end.
Lemma asum_pos K : 0 <= asum K. Proof. induction K as [|K IH]; cbn [asum]; [lra|pose proof (an_pos K); lra]. Qed.
Lemma asum_mono K i : asum K <= asum (K + i). Proof. induction i as [|i IH]; [rewrite Nat.add_0_r; lra|]. replace (K + S i)%nat with (S (K + i)) by lia. cbn [asum]. pose proof (an_pos (K + i)). lra. Qed.
Lemma rat_stop K t : 0 <= t <= / 2 ^ 52 -> an K <= t * asum K -> rat K <= 0.8.
Proof.
  intros Ht H. apply Rnot_lt_le. intros G. assert (L : (K < 33)%nat) by (destruct (le_lt_dec 33 K) as [Q|Q]; [pose proof (rat_late K Q); lra|exact Q]).
  assert (B : forall j, (j <= K)%nat -> an (K - j) <= 1.25 ^ j * an K).
  { induction j as [|j IH]; intros J; [rewrite Nat.sub_0_r; cbn [pow]; lra|]. specialize (IH ltac:(lia)). replace (K - j)%nat with (S (K - S j)) in IH by lia. rewrite an_step in IH.
    pose proof (rat_mono (K - S j) K ltac:(lia)). pose proof (an_pos (K - S j)). change (1.25 ^ S j) with (1.25 * 1.25 ^ j). assert (0.8 * an (K - S j) <= rat (K - S j) * an (K - S j)) by (apply Rmult_le_compat_r; lra). lra. }
  assert (B2 : forall i, (i <= K)%nat -> an i <= 1600 * an K).
  { intros i Hi. specialize (B (K - i)%nat ltac:(lia)). replace (K - (K - i))%nat with i in B by lia. eapply Rle_trans; [exact B|]. apply Rmult_le_compat_r; [left; apply an_pos|].
    apply Rle_trans with (1.25 ^ 33); [apply Rle_pow; [lra|lia]|interval]. }
  assert (S1 : forall i, (i <= K)%nat -> asum i <= INR i * (1600 * an K)).
  { induction i as [|i IH]; intros Hi; [cbn [asum INR]; lra|]. cbn [asum]. rewrite S_INR. specialize (IH ltac:(lia)). specialize (B2 i ltac:(lia)). lra. }
  specialize (S1 K ltac:(lia)). pose proof (an_pos K) as P. assert (INR K <= 33) by (replace 33 with (INR 33) by (cbn; lra); apply le_INR; lia).
  assert (asum K <= 52800 * an K) by (eapply Rle_trans; [exact S1|]; replace (52800 * an K) with (33 * (1600 * an K)) by ring; apply Rmult_le_compat_r; lra).
  pose proof (asum_pos K). assert (t * asum K <= / 2 ^ 52 * (52800 * an K)) by (apply Rmult_le_compat; lra). lra.
Qed.
Lemma negterm_real k : negterm m (RtoC x) k = RtoC (an k).
Proof. unfold negterm, an. rewrite RtoC_mult. f_equal. exact (Cpow_re x (S k)). Qed.
Lemma Csum_real K : Csum (negterm m (RtoC x)) K = RtoC (asum K).
Proof. induction K as [|K IH]; [reflexivity|]. cbn [Csum asum]. rewrite IH, negterm_real, RtoC_plus. reflexivity. Qed.
Definition GG : R := fst (Li_neg m (RtoC x)).
Lemma asum_G K : asum K <= GG.
Proof.
  assert (SM : Csums (negterm m (RtoC x)) (Li_neg m (RtoC x))) by (apply Li_neg_series; rewrite Cmod_R, Rabs_pos_eq; lra).
  apply Rnot_lt_le. intros H. destruct (Csums_eps _ _ SM (asum K - GG) ltac:(lra)) as (K0 & HK). specialize (HK (K + K0)%nat ltac:(lia)). rewrite Csum_real in HK.
  pose proof (Cmod_fst (Cminus (RtoC (asum (K + K0))) (Li_neg m (RtoC x)))) as F. cbn [fst Cminus Cplus Copp RtoC] in F. fold GG in F. pose proof (asum_mono K K0). pose proof (Rle_abs (asum (K + K0) + - GG)). lra.
Qed.
Variable z : C.
Hypothesis Hz : Cmod z = x.
Lemma negterm_mod k : Cmod (negterm m z k) = an k.
Proof. unfold negterm, an. rewrite Cmod_mult, Cmod_R, Cpow_mod, Hz, Rabs_pos_eq by (apply pow_le, pos_INR). reflexivity. Qed.
Lemma negsum_mod K : Cmod (Csum (negterm m z) K) <= asum K.
Proof. induction K as [|K IH]; [cbn [Csum asum]; rewrite Cmod_0; lra|]. cbn [Csum asum]. eapply Rle_trans; [apply Cmod_triangle|]. rewrite negterm_mod. lra. Qed.
Lemma neg_series_tail K : rat K <= 0.8 -> Cmod (Cminus (Li_neg m z) (Csum (negterm m z) (S K))) <= 4 * an K.
Proof.
  intros H. assert (SM : Csums (negterm m z) (Li_neg m z)) by (apply Li_neg_series; rewrite Hz; lra).
  replace (4 * an K) with (Cmod (negterm m z K) * (0.8 / (1 - 0.8))) by (rewrite negterm_mod; lra). apply geo_tail; [lra| |].
  - intros i Hi. rewrite !negterm_mod, an_step. apply Rmult_le_compat_r; [left; apply an_pos|]. eapply Rle_trans; [apply (rat_mono K i Hi)|exact H].
  - intros ep He. destruct (Csums_eps _ _ SM ep He) as (K0 & HK). exists K0. intros k Hk. specialize (HK k Hk). rewrite <- Cmod_opp. replace (Copp (Cminus (Li_neg m z) (Csum (negterm m z) k))) with (Cminus (Csum (negterm m z) k) (Li_neg m z)) by ring. exact HK.
Qed.
Lemma an_far K : (1000 <= K)%nat -> an K <= 1e-60 * GG.
Proof.
  intros H. assert (D : forall i, an (33 + i) <= 0.8 ^ i * an 33).
  { induction i as [|i IH]; [cbn [pow Nat.add]; lra|]. replace (33 + S i)%nat with (S (33 + i)) by lia. rewrite an_step. change (0.8 ^ S i) with (0.8 * 0.8 ^ i). rewrite Rmult_assoc. pose proof (an_pos (33 + i)).
    apply Rmult_le_compat; [|lra| |exact IH].
    - unfold rat. apply Rmult_le_pos; [lra|]. apply pow_le. rewrite quo. pose proof (Rinv_0_lt_compat _ (lt_0_INR (S (33 + i)) ltac:(lia))). lra.
    - apply rat_late. lia. }
  specialize (D (K - 33)%nat). replace (33 + (K - 33))%nat with K in D by lia. pose proof (an_pos 33).
  assert (G : an 33 <= GG) by (eapply Rle_trans; [|apply (asum_G 34)]; change (asum 34) with (asum 33 + an 33); pose proof (asum_pos 33); lra).
  assert (P8 : 0.8 ^ (K - 33) <= 1e-60) by (apply (pow_late 0.8 900); [lra|lia|interval]). pose proof (pow_le 0.8 (K - 33) ltac:(lra)).
  eapply Rle_trans; [exact D|]. apply Rmult_le_compat; lra.
Qed.
Lemma neg_series_acc e q t fuel w : stop_test q t -> 0 <= t <= / 2 ^ 52 -> Li_series (NumQ e q) fuel (- Z.of_nat m) (ofC e z) = Val w ->
  exists y, w = ofC e y /\ Cmod (Cminus y (Li_neg m z)) <= (8 * t + 7e-16) * GG.
Proof.
  intros Ht T0 H. unfold Li_series in H.
  assert (PT : forall k, polyterm (- Z.of_nat m) z k = negterm m z k).
  { intros k. unfold polyterm, negterm. rewrite Z.opp_involutive, <- pow_powerRZ. reflexivity. }
  replace (czero (NumQ e q)) with (ofC e (Csum (polyterm (- Z.of_nat m) z) 0) : cpx (NumQ e q)) in H.
  2:{ cbn [Csum]. unfold czero. change (lit (NumQ e q) 0 0) with (lit (NumR e) 0 0). rewrite lit_int. reflexivity. }
  assert (E0 : ofC e z = ofC e (polyterm (- Z.of_nat m) z 0)).
  { apply (f_equal (ofC e)). rewrite PT. unfold negterm. cbn [INR Cpow]. rewrite pow1. ring. }
  replace (Li_series_loop (NumQ e q) fuel (- Z.of_nat m) (ofC e z) 0 (ofC e (Csum (polyterm (- Z.of_nat m) z) 0)) (ofC e z)) with (Li_series_loop (NumQ e q) fuel (- Z.of_nat m) (ofC e z) (Z.of_nat 0) (ofC e (Csum (polyterm (- Z.of_nat m) z) 0)) (ofC e (polyterm (- Z.of_nat m) z 0))) in H by (rewrite <- E0; reflexivity).
  apply (series_loop_stop e q t Ht ltac:(lra)) in H; [|unfold INT64_MAX; lia]. destruct H as (K & -> & ST).
  rewrite (Csum_ext _ (negterm m z)) by (intros; apply PT). rewrite (Csum_ext _ (negterm m z) K) in ST by (intros; apply PT). rewrite PT, negterm_mod in ST.
  exists (Csum (negterm m z) (S K)). split; [reflexivity|]. rewrite <- Cmod_opp. replace (Copp (Cminus (Csum (negterm m z) (S K)) (Li_neg m z))) with (Cminus (Li_neg m z) (Csum (negterm m z) (S K))) by ring.
  pose proof (asum_G K) as G. pose proof (asum_pos K) as A0. assert (G0 : 0 <= GG) by lra. assert (0 <= t * GG) by (apply Rmult_le_pos; lra).
  destruct ST as [ST|ST].
  - assert (ST2 : an K <= t * asum K) by (eapply Rle_trans; [exact ST|]; apply Rmult_le_compat_l; [lra|apply negsum_mod]).
    eapply Rle_trans; [apply neg_series_tail, (rat_stop K t T0 ST2)|]. assert (t * asum K <= t * GG) by (apply Rmult_le_compat_l; lra). lra.
  - assert (HK : (1000 <= K)%nat) by (unfold INT64_MAX in ST; lia). eapply Rle_trans; [apply neg_series_tail, rat_late; lia|]. pose proof (an_far K HK). lra.
Qed.
End Sr.
