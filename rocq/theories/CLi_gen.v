(** * The expansion of Li_n(e^w) about w = 0, any order n >= 1, 0 < |w| < 2 pi: convergence and truncation error.
    Nothing here mentions the code. *)
From Coq Require Import ZArith Reals List Bool Lra Lia Psatz.
From Coquelicot Require Import Coquelicot.
From Verif Require Import NumR Spec Cplx Clog_series Chain Polylog Polylog_series Clausen Bern Cot Ccalc CLi CLi_disc CLi_inv Unity Rest Cpoly CLi_unity CLi_exp.
Import ListNotations.
Local Open Scope R_scope.

Definition beta (k : nat) : R := bern k * inv_fact k.
Lemma tpk k : 0 < (2 * PI) ^ k. Proof. apply pow_lt. pose proof PI_RGT_0. lra. Qed.
Lemma asl_bd k : Rabs (asl k) <= 2.
Proof.
  pose proof Consts.PI_dec20 as HP. destruct k as [|[|k]].
  - unfold asl, Dsl. rewrite Rabs_Ropp, Rabs_pos_eq; lra.
  - unfold asl, Dsl. rewrite Rabs_pos_eq; lra.
  - destruct (Nat.Even_or_Odd (S (S k))) as [[m E]|[m E]]; rewrite E.
    + rewrite asl_even by lia. rewrite Rabs_mult, pow_1_abs, Rmult_1_l. pose proof (zeta_le2 (2 * m) ltac:(lia)). rewrite Rabs_pos_eq; lra.
    + rewrite asl_odd by lia. rewrite Rabs_R0. lra.
Qed.
Lemma beta_asl k : beta k = -2 * asl k / (2 * PI) ^ k.
Proof. unfold beta, bern, inv_fact. pose proof (INR_fact_neq_0 k). pose proof (tpk k). field. split; lra. Qed.
Lemma beta_bd k : Rabs (beta k) <= 4 / (2 * PI) ^ k.
Proof.
  rewrite beta_asl. pose proof (tpk k) as P. unfold Rdiv. rewrite !Rabs_mult, (Rabs_pos_eq (/ _)) by (left; apply Rinv_0_lt_compat; exact P).
  apply Rmult_le_compat_r; [left; apply Rinv_0_lt_compat; exact P|]. rewrite (Rabs_left (-2)) by lra. pose proof (asl_bd k). lra.
Qed.
Lemma beta_0 : beta 0 = 1. Proof. rewrite beta_asl. unfold asl, Dsl. cbn [pow]. field. Qed.
Lemma beta_1 : beta 1 = - / 2. Proof. rewrite beta_asl. unfold asl, Dsl. pose proof PI_RGT_0. cbn [pow]. field. lra. Qed.
Lemma beta_rec m : (1 <= m)%nat -> sum_f_R0 (fun k => beta k * inv_fact (S (m - k))) m = 0.
Proof.
  intros Hm. destruct bern_is_bernoulli as [_ B]. specialize (B m Hm).
  rewrite (sum_eq _ (fun k => beta k * inv_fact (S (m - k)) * INR (fact (S m))) m) in B.
  - rewrite <- scal_sum in B. apply Rmult_integral in B. destruct B as [B|B]; [exfalso; exact (INR_fact_neq_0 _ B)|exact B].
  - intros k Hk. unfold Binomial.C, beta, inv_fact. replace (S m - k)%nat with (S (m - k)) by lia. field. split; apply INR_fact_neq_0.
Qed.
Lemma Csum_ext f g n : (forall i, (i < n)%nat -> f i = g i) -> Csum f n = Csum g n.
Proof. apply Csum_ext_lt. Qed.
Lemma Csum_plus f g n : Cplus (Csum f n) (Csum g n) = Csum (fun i => Cplus (f i) (g i)) n.
Proof. induction n as [|n IH]; cbn [Csum]; [ring|]. rewrite <- IH. ring. Qed.
Lemma Csum_R (f : nat -> R) n : Csum (fun i => RtoC (f i)) (S n) = RtoC (sum_f_R0 f n).
Proof. induction n as [|n IH]; [cbn [Csum sum_f_R0]; ring|]. change (Csum (fun i => RtoC (f i)) (S (S n))) with (Cplus (Csum (fun i => RtoC (f i)) (S n)) (RtoC (f (S n)))). rewrite IH. cbn [sum_f_R0]. rewrite RtoC_plus. reflexivity. Qed.

Section G.
Variable w : C.
Definition ak (k : nat) : C := Cmult (RtoC (beta k)) (Cpow w k).
Definition gj (j : nat) : C := Cmult (RtoC (inv_fact (S j))) (Cpow w j).
Lemma conv_K K : (1 <= K)%nat -> Csum (fun k => Cmult (ak k) (gj (K - k))) (S K) = RtoC 0.
Proof.
  intros H. rewrite (Csum_ext _ (fun k => Cmult (Cpow w K) (RtoC (beta k * inv_fact (S (K - k)))))).
  - rewrite <- Csum_scal, Csum_R, beta_rec by exact H. ring.
  - intros i Hi. unfold ak, gj. replace (Cpow w K) with (Cmult (Cpow w i) (Cpow w (K - i))) by (rewrite <- Cpow_add; f_equal; lia). rewrite RtoC_mult. ring.
Qed.
Lemma tri K : (1 <= K)%nat -> Csum (fun k => Cmult (ak k) (Csum gj (K - k))) K = RtoC 1.
Proof.
  induction K as [|K IH]; [lia|]. intros _. destruct K as [|K].
  - cbn [Csum Nat.sub]. unfold ak, gj. rewrite beta_0. unfold inv_fact. change (Cpow w 0) with (RtoC 1). change (INR (fact 1)) with 1. rewrite Rinv_1. ring.
  - rewrite (Csum_ext _ (fun k => Cplus (Cmult (ak k) (Csum gj (S K - k))) (Cmult (ak k) (gj (S K - k))))).
    + rewrite <- Csum_plus, (conv_K (S K)) by lia. change (Csum ?f (S (S K))) with (Cplus (Csum f (S K)) (f (S K))). cbv beta. rewrite IH by lia. rewrite Nat.sub_diag. cbn [Csum]. ring.
    + intros i Hi. replace (S (S K) - i)%nat with (S (S K - i)) by lia. cbn [Csum]. ring.
Qed.
Hypothesis W0 : w <> RtoC 0.
Definition Gw : C := Cdiv (Cminus (Cexp w) (RtoC 1)) w.
Lemma exp_gj j : Csum (expterm w) (S j) = Cplus (RtoC 1) (Cmult w (Csum gj j)).
Proof.
  rewrite Csum_shift. f_equal.
  - unfold expterm, inv_fact. change (Cpow w 0) with (RtoC 1). cbn [fact INR]. rewrite Rinv_1. ring.
  - rewrite Csum_scal. apply Csum_ext. intros i _. unfold expterm, gj. rewrite Cpow_S. ring.
Qed.
Lemma inv_fact_exp x j : 0 <= x -> x ^ j * inv_fact (S j) <= exp x.
Proof.
  intros X. assert (A : inv_fact (S j) <= inv_fact j).
  { unfold inv_fact. apply Rinv_le_contravar; [apply INR_fact_lt_0|]. apply le_INR. rewrite fact_simpl. nia. }
  apply Rle_trans with (x ^ j * inv_fact j); [apply Rmult_le_compat_l; [apply pow_le; exact X|exact A]|].
  eapply Rle_trans; [|apply (exp_partial x j X)]. destruct j as [|j]; [cbn; lra|]. cbn [sum_f_R0].
  assert (0 <= sum_f_R0 (fun m => x ^ m * inv_fact m) j) by (apply cond_pos_sum; intros m; apply Rmult_le_pos; [apply pow_le; exact X|left; apply inv_fact_pos]). lra.
Qed.
Hypothesis W1 : Cmod w <= 2 * PI.
Definition G0 : R := exp (2 * PI) * exp (2 * PI).
Definition rw : R := Cmod w / (2 * PI).
Lemma rw_pos : 0 <= rw. Proof. clear. unfold rw. pose proof PI_RGT_0. apply Rdiv_le_0_compat; [apply Cmod_ge_0|lra]. Qed.
Lemma rw_mul j : Cmod w ^ j = rw ^ j * (2 * PI) ^ j.
Proof. clear. rewrite <- Rpow_mult_distr. f_equal. unfold rw. pose proof PI_RGT_0. field. lra. Qed.
Lemma G_tail j : Cmod (Cminus Gw (Csum gj j)) <= G0 * rw ^ j.
Proof.
  pose proof (Cmod_ge_0 w) as M0. assert (MW : 0 < Cmod w) by (apply Cmod_gt_0; exact W0).
  replace (Cminus Gw (Csum gj j)) with (Cdiv (Cminus (Cexp w) (Csum (expterm w) (S j))) w).
  2:{ rewrite exp_gj. unfold Gw. generalize (Csum gj j). intros s. field. exact W0. }
  rewrite Cmod_div by exact W0. apply Rle_div_l; [exact MW|]. eapply Rle_trans; [apply exp_rem|].
  assert (E1 : exp (Cmod w) <= exp (2 * PI)) by (apply exp_mono; exact W1). pose proof (exp_pos (Cmod w)). pose proof (exp_pos (2 * PI)) as EP. pose proof PI_RGT_0.
  cbn [pow]. rewrite rw_mul. unfold G0. pose proof (inv_fact_exp (2 * PI) j ltac:(lra)) as E2. pose proof (pow_le rw j rw_pos) as R0. pose proof (inv_fact_pos (S j)).
  pose proof (tpk j). 
  replace (exp (Cmod w) * (inv_fact (S j) * (Cmod w * (rw ^ j * (2 * PI) ^ j)))) with (exp (Cmod w) * (((2 * PI) ^ j * inv_fact (S j)) * (rw ^ j * Cmod w))) by ring.
  replace (exp (2 * PI) * exp (2 * PI) * rw ^ j * Cmod w) with (exp (2 * PI) * (exp (2 * PI) * (rw ^ j * Cmod w))) by ring.
  assert (Q : 0 <= rw ^ j * Cmod w) by (apply Rmult_le_pos; assumption).
  apply Rmult_le_compat; [lra| |exact E1|apply Rmult_le_compat_r; assumption].
  apply Rmult_le_pos; [apply Rmult_le_pos; lra|exact Q].
Qed.
Lemma P_res K : (1 <= K)%nat -> Cmod (Cminus (Cmult (Csum ak K) Gw) (RtoC 1)) <= 4 * INR K * G0 * rw ^ K.
Proof.
  intros HK. rewrite <- (tri K HK). rewrite (Cmult_comm (Csum ak K)), Csum_scal, Csum_minus.
  assert (B : forall k, (k < K)%nat -> Cmod (Cminus (Cmult Gw (ak k)) (Cmult (ak k) (Csum gj (K - k)))) <= 4 * G0 * rw ^ K).
  { intros k Hk. replace (Cminus (Cmult Gw (ak k)) (Cmult (ak k) (Csum gj (K - k)))) with (Cmult (ak k) (Cminus Gw (Csum gj (K - k)))) by ring. rewrite Cmod_mult.
    assert (A : Cmod (ak k) <= 4 * rw ^ k).
    { unfold ak. rewrite Cmod_mult, Cmod_R, Cpow_mod, rw_mul. pose proof (beta_bd k) as Bd. pose proof (pow_le rw k rw_pos). pose proof (tpk k).
      apply Rle_trans with (4 / (2 * PI) ^ k * (rw ^ k * (2 * PI) ^ k)); [apply Rmult_le_compat_r; [apply Rmult_le_pos; lra|exact Bd]|]. right. field. lra. }
    pose proof (G_tail (K - k)) as T. replace (rw ^ K) with (rw ^ k * rw ^ (K - k)) by (rewrite <- pow_add; f_equal; lia).
    replace (4 * G0 * (rw ^ k * rw ^ (K - k))) with (4 * rw ^ k * (G0 * rw ^ (K - k))) by ring.
    apply Rmult_le_compat; try apply Cmod_ge_0; assumption. }
  set (c := 4 * G0 * rw ^ K) in B. replace (4 * INR K * G0 * rw ^ K) with (INR K * c) by (unfold c; ring). clearbody c.
  set (F := fun k => Cminus (Cmult Gw (ak k)) (Cmult (ak k) (Csum gj (K - k)))) in *. change (forall k, (k < K)%nat -> Cmod (F k) <= c) in B. clearbody F. clear - B.
  induction K as [|n IH]; [cbn [Csum INR]; rewrite Cmod_0; lra|]. cbn [Csum]. rewrite S_INR. eapply Rle_trans; [apply Cmod_triangle|].
  pose proof (IH ltac:(intros; apply B; lia)). pose proof (B n ltac:(lia)). lra.
Qed.
End G.

(** ** level 0 *)
Definition bco (j : nat) : R := match j with O => - / 2 | S _ => - beta (S j) end.
Definition bL (K : nat) : list R := map bco (seq 0 K).
Lemma cpev_seq (f : nat -> R) w K : forall a, cpev (map f (seq a K)) w = Csum (fun j => Cmult (RtoC (f (a + j)%nat)) (Cpow w j)) K.
Proof.
  induction K as [|K IH]; intros a; [reflexivity|]. cbn [seq map cpev]. rewrite Csum_shift. rewrite IH. f_equal.
  - rewrite Nat.add_0_r. change (Cpow w 0) with (RtoC 1). ring.
  - rewrite Csum_scal. apply Csum_ext. intros i _. replace (a + S i)%nat with (S a + i)%nat by lia. rewrite Cpow_S. ring.
Qed.
Lemma bL_P w K : (1 <= K)%nat -> Cmult w (cpev (bL K) w) = Cminus (Cminus (RtoC 1) w) (Csum (ak w) (S K)).
Proof.
  intros HK. unfold bL. rewrite cpev_seq. destruct K as [|K]; [lia|]. clear HK. induction K as [|K IH].
  - cbn [Csum Nat.add]. unfold ak, bco. rewrite beta_0, beta_1. change (Cpow w 0) with (RtoC 1). change (Cpow w 1) with (Cmult w (RtoC 1)).
    rewrite RtoC_opp. replace (RtoC (/ 2)) with (Cinv (RtoC 2)) by (rewrite <- RtoC_inv by lra; reflexivity). 
    replace (RtoC 2) with (Cplus (RtoC 1) (RtoC 1)) by (rewrite <- RtoC_plus; f_equal; lra). field. intros E. apply (f_equal fst) in E. cbn in E. lra.
  - change (Csum ?f (S (S K))) with (Cplus (Csum f (S K)) (f (S K))). rewrite Cmult_plus_distr_l, IH.
    change (Csum (ak w) (S (S (S K)))) with (Cplus (Csum (ak w) (S (S K))) (ak w (S (S K)))). cbn [Nat.add]. unfold bco. change (ak w (S (S K))) with (Cmult (RtoC (beta (S (S K)))) (Cpow w (S (S K)))). rewrite RtoC_opp, (Cpow_S w (S K)). ring.
Qed.
Lemma EU0_gen K rho w : (1 <= K)%nat -> rho <= 2 * PI -> 0 < snd w <= PI -> Cmod w <= rho ->
  Cmod (EU (bL K) 0 w) <= INR (S K) * G0 * (rho / (2 * PI)) ^ K * exp rho.
Proof.
  intros HK HR Hy Hw. pose proof PI_RGT_0 as PP. pose proof (Cmod_ge_0 w) as W0.
  assert (WN : w <> RtoC 0) by (intros E; rewrite E in Hy; cbn in Hy; lra). assert (WP : 0 < Cmod w) by (apply Cmod_gt_0, WN).
  pose proof (expm1_low w rho ltac:(lra)) as L. assert (AF : Rabs (fst w) <= rho) by (eapply Rle_trans; [apply Cmod_fst|exact Hw]). specialize (L AF ltac:(lra)).
  assert (KP : 0 < exp (- rho) * (2 / PI)) by (apply Rmult_lt_0_compat; [apply exp_pos|apply Rdiv_lt_0_compat; lra]).
  assert (EN : Cminus (Cexp w) (RtoC 1) <> RtoC 0). { intros E. rewrite E, Cmod_0 in L. assert (0 < exp (- rho) * (2 / PI) * Cmod w) by (apply Rmult_lt_0_compat; assumption). lra. }
  assert (EN' : Cminus (RtoC 1) (Cexp w) <> RtoC 0). { replace (Cminus (RtoC 1) (Cexp w)) with (Copp (Cminus (Cexp w) (RtoC 1))) by ring. apply Copp_ne, EN. }
  assert (ID : EU (bL K) 0 w = Cdiv (Cminus (Cmult (Csum (ak w) (S K)) (Gw w)) (RtoC 1)) (Cminus (Cexp w) (RtoC 1))).
  { unfold EU. cbn [CLi IG Lm]. pose proof (bL_P w K HK) as E. set (b := cpev (bL K) w) in *. set (p := Csum (ak w) (S K)) in *.
    replace b with (Cdiv (Cmult w b) w) by (field; exact WN). rewrite E. unfold Gw. clearbody p b. set (x := Cexp w) in *. clearbody x.
    field. repeat split; assumption. }
  rewrite ID, Cmod_div by exact EN.
  assert (DP : 0 < Cmod (Cminus (Cexp w) (RtoC 1))) by (apply Cmod_gt_0, EN). apply Rle_div_l; [exact DP|].
  eapply Rle_trans; [apply P_res; [exact WN|lra|lia]|].
  assert (RW : rw w <= rho / (2 * PI)) by (unfold rw; apply Rmult_le_compat_r; [left; apply Rinv_0_lt_compat; lra|exact Hw]).
  pose proof (rw_pos w) as R0. pose proof (pow_incr (rw w) (rho / (2 * PI)) K ltac:(lra)) as PI'. pose proof (pow_le (rw w) K R0) as PK.
  assert (GP : 0 < G0) by (unfold G0; apply Rmult_lt_0_compat; apply exp_pos). pose proof (pos_INR (S K)) as IP.
  set (A := INR (S K) * G0) in *. assert (A0 : 0 <= A) by (apply Rmult_le_pos; lra).
  apply Rle_trans with (A * (rho / (2 * PI)) ^ K * exp rho * (exp (- rho) * (2 / PI) * Cmod w)).
  2:{ apply Rmult_le_compat_l; [|exact L]. apply Rmult_le_pos; [apply Rmult_le_pos; [exact A0|lra]|left; apply exp_pos]. }
  replace (A * (rho / (2 * PI)) ^ K * exp rho * (exp (- rho) * (2 / PI) * Cmod w)) with (A * (rho / (2 * PI)) ^ K * (2 / PI * Cmod w) * (exp rho * exp (- rho))) by ring.
  rewrite <- exp_plus, Rplus_opp_r, exp_0, Rmult_1_r. cbn [pow].
  replace (4 * INR (S K) * G0 * (rw w * rw w ^ K)) with (A * (rw w ^ K) * (4 * rw w)) by (unfold A; ring).
  replace (4 * rw w) with (2 / PI * Cmod w) by (unfold rw; field; lra).
  apply Rmult_le_compat_r; [apply Rmult_le_pos; [left; apply Rdiv_lt_0_compat; lra|exact W0]|]. apply Rmult_le_compat_l; [exact A0|exact PI'].
Qed.

(** ** any order *)
Definition tco (n j : nat) : R := if (j <? n)%nat then IGc (n - j) * inv_fact j else bco (j - n) * INR (fact (j - n)) * inv_fact j.
Lemma ik_seq f M : forall a, ik (S a) (map f (seq a M)) = map (fun j => f j / INR (S j)) (seq a M).
Proof. induction M as [|M IH]; intros a; [reflexivity|]. cbn [seq map ik]. rewrite IH. reflexivity. Qed.
Lemma IG_seq K n : IG (bL K) n = map (tco n) (seq 0 (n + K)).
Proof.
  induction n as [|n IH].
  - cbn [IG Nat.add]. apply map_ext. intros j. unfold tco. rewrite Nat.sub_0_r. cbn [Nat.ltb Nat.leb]. unfold inv_fact. field. apply INR_fact_neq_0.
  - cbn [IG Nat.add seq map]. unfold il. f_equal.
    + unfold tco. rewrite Nat.sub_0_r. cbn [Nat.ltb Nat.leb]. unfold inv_fact. cbn [fact INR]. field.
    + rewrite IH, ik_seq, <- seq_shift, map_map. apply map_ext. intros j. unfold tco. change (S j <? S n)%nat with (j <? n)%nat. cbn [Nat.sub].
      assert (E : inv_fact j / INR (S j) = inv_fact (S j)). { rewrite <- if_S. field. apply not_0_INR. lia. }
      destruct (j <? n)%nat; rewrite <- E; unfold Rdiv; ring.
Qed.
Definition zt (m : Z) : R := if (2 <=? m)%Z then ReLi (Z.to_nat m) 1 else if (m =? 0)%Z then - / 2 else - bern (Z.to_nat (1 - m)) / IZR (1 - m).
Definition tterm (n : nat) (w : C) (j : nat) : C :=
  Cmult (if (j =? n - 1)%nat then Cminus (RtoC (Hm (n - 1))) (Clog (Copp w)) else RtoC (zt (Z.of_nat n - Z.of_nat j))) (Cdiv (Cpow w j) (RtoC (INR (fact j)))).
Lemma div_fact w j : Cdiv (Cpow w j) (RtoC (INR (fact j))) = Cmult (RtoC (inv_fact j)) (Cpow w j).
Proof. unfold inv_fact. rewrite RtoC_inv by apply INR_fact_neq_0. unfold Cdiv. ring. Qed.
Lemma tterm_tco n w j : (1 <= n)%nat -> tterm n w j = Cplus (Cmult (RtoC (tco n j)) (Cpow w j)) (if (j =? n - 1)%nat then Lm n w else RtoC 0).
Proof.
  intros Hn. unfold tterm. rewrite div_fact. destruct (Nat.eqb_spec j (n - 1)) as [->|NE].
  - unfold tco. destruct (Nat.ltb_spec (n - 1) n); [|lia]. replace (n - (n - 1))%nat with 1%nat by lia. unfold IGc. cbn [Nat.eqb]. rewrite Rmult_0_l.
    destruct n as [|m]; [lia|]. cbn [Lm]. replace (S m - 1)%nat with m by lia. ring.
  - assert (E : zt (Z.of_nat n - Z.of_nat j) * inv_fact j = tco n j); [|rewrite <- E, RtoC_mult; ring].
    unfold zt, tco. destruct (Nat.ltb_spec j n) as [L|L].
    + destruct (Z.leb_spec 2 (Z.of_nat n - Z.of_nat j)); [|lia]. replace (Z.to_nat (Z.of_nat n - Z.of_nat j)) with (n - j)%nat by lia. unfold IGc. destruct (Nat.eqb_spec (n - j) 1); [lia|reflexivity].
    + destruct (Z.leb_spec 2 (Z.of_nat n - Z.of_nat j)); [lia|]. destruct (Z.eqb_spec (Z.of_nat n - Z.of_nat j) 0) as [Q|Q].
      * replace (j - n)%nat with 0%nat by lia. unfold bco. cbn [fact INR]. ring.
      * replace (Z.to_nat (1 - (Z.of_nat n - Z.of_nat j))) with (S (j - n)) by lia. replace (1 - (Z.of_nat n - Z.of_nat j))%Z with (Z.of_nat (S (j - n))) by lia. rewrite <- INR_IZR_INZ.
        destruct (j - n)%nat as [|d] eqn:ED; [lia|]. unfold bco, beta.
        assert (E : inv_fact (S (S d)) * INR (fact (S d)) = / INR (S (S d))).
        { unfold inv_fact. rewrite (fact_simpl (S d)), mult_INR. pose proof (INR_fact_neq_0 (S d)). pose proof (not_0_INR (S (S d)) ltac:(lia)). field. split; assumption. }
        unfold Rdiv. rewrite <- E. ring.
Qed.
Lemma Csum_at f c a N : (a < N)%nat -> Csum (fun j => Cplus (f j) (if (j =? a)%nat then c else RtoC 0)) N = Cplus (Csum f N) c.
Proof.
  assert (Z0 : forall N, (N <= a)%nat -> Csum (fun j => Cplus (f j) (if (j =? a)%nat then c else RtoC 0)) N = Csum f N).
  { intros M HM. apply Csum_ext. intros i Hi. destruct (Nat.eqb_spec i a); [lia|ring]. }
  induction N as [|N IH]; intros H; [lia|]. cbn [Csum]. destruct (Nat.eqb_spec N a) as [->|NE]; [rewrite Z0 by lia; ring|rewrite IH by lia; ring].
Qed.
Lemma tterm_EU n w K : (1 <= n)%nat -> Cminus (CLi n (Cexp w)) (Csum (tterm n w) (n + K)) = EU (bL K) n w.
Proof.
  intros Hn. unfold EU. rewrite IG_seq, cpev_seq. cbn [Nat.add].
  rewrite (Csum_ext (tterm n w) (fun j => Cplus (Cmult (RtoC (tco n j)) (Cpow w j)) (if (j =? n - 1)%nat then Lm n w else RtoC 0))) by (intros; apply tterm_tco; exact Hn).
  rewrite Csum_at by lia. ring.
Qed.
(** error of the truncated expansion, going to 0 *)
Theorem unity_rate n w K rho : (1 <= n)%nat -> (1 <= K)%nat -> rho <= 2 * PI -> 0 < snd w <= PI -> Cmod w <= rho ->
  Cmod (Cminus (CLi n (Cexp w)) (Csum (tterm n w) (n + K))) <= INR (S K) * G0 * (rho / (2 * PI)) ^ K * exp rho * inv_fact n * (Rabs (fst w) + snd w) ^ n.
Proof.
  intros Hn HK HR Hy Hw. rewrite tterm_EU by exact Hn. destruct w as [s y]. cbn [fst snd] in *.
  apply (EU_bound (bL K) rho); [|exact Hy|exact Hw]. intros s' y' Hy' Hw'. apply EU0_gen; assumption.
Qed.
Lemma nr_zero r : 0 <= r < 1 -> forall e, 0 < e -> exists K0, forall K, (K0 <= K)%nat -> INR (S K) * r ^ K < e.
Proof.
  intros Hr e He. destruct (Req_dec r 0) as [->|R0].
  - exists 1%nat. intros K HK. destruct K as [|K]; [lia|]. cbn [pow]. lra.
  - set (q := sqrt r). assert (Q0 : 0 < q) by (apply sqrt_lt_R0; lra). assert (Q1 : q < 1) by (unfold q; rewrite <- sqrt_1; apply sqrt_lt_1; lra).
    assert (QQ : q * q = r) by (apply sqrt_sqrt; lra).
    set (d := / q - 1). assert (D : 0 < d). { unfold d. assert (1 < / q) by (rewrite <- Rinv_1; apply Rinv_lt_contravar; lra). lra. }
    set (c := 1 + / d). assert (DI : 0 < / d) by (apply Rinv_0_lt_compat, D). assert (C0 : 0 < c) by (unfold c; lra).
    assert (B : forall K, INR (S K) * q ^ K <= c).
    { intros K. assert (P : 1 + INR K * d <= (1 + d) ^ K) by (apply Rfunctions.poly; exact D). replace (1 + d) with (/ q) in P by (unfold d; ring). rewrite pow_inv in P by lra.
      assert (QK : 0 < q ^ K) by (apply pow_lt; exact Q0).
      assert (X : (1 + INR K * d) * q ^ K <= 1). { apply Rle_trans with (/ q ^ K * q ^ K); [apply Rmult_le_compat_r; lra|right; field; lra]. }
      rewrite S_INR. assert (Y : INR K + 1 <= c * (1 + INR K * d)).
      { unfold c. pose proof (pos_INR K). assert (0 <= INR K * d) by (apply Rmult_le_pos; lra). assert (E : / d * (INR K * d) = INR K) by (field; lra).
        replace ((1 + / d) * (1 + INR K * d)) with (1 + INR K * d + / d + / d * (INR K * d)) by ring. rewrite E. lra. }
      apply Rle_trans with (c * (1 + INR K * d) * q ^ K); [apply Rmult_le_compat_r; lra|]. rewrite Rmult_assoc. rewrite <- (Rmult_1_r c) at 2. apply Rmult_le_compat_l; lra. }
    destruct (pow_lt_1_zero q ltac:(rewrite Rabs_pos_eq; lra) (e / c) ltac:(apply Rdiv_lt_0_compat; assumption)) as (K0 & HK0).
    exists K0. intros K HK. specialize (HK0 K HK). rewrite Rabs_pos_eq in HK0 by (apply pow_le; lra).
    rewrite <- QQ, Rpow_mult_distr, <- Rmult_assoc. assert (QK : 0 < q ^ K) by (apply pow_lt; exact Q0).
    apply Rle_lt_trans with (c * q ^ K); [apply Rmult_le_compat_r; [lra|apply B]|]. apply Rmult_lt_compat_l with (r := c) in HK0; [|exact C0]. replace (c * (e / c)) with e in HK0 by (field; lra). exact HK0.
Qed.
Theorem unity_conv n w : (1 <= n)%nat -> 0 < snd w <= PI -> Cmod w < 2 * PI -> forall e, 0 < e ->
  exists K0, forall K, (K0 <= K)%nat -> Cmod (Cminus (CLi n (Cexp w)) (Csum (tterm n w) K)) < e.
Proof.
  intros Hn Hy Hw e He. pose proof PI_RGT_0 as PP. pose proof (Cmod_ge_0 w) as W0.
  set (A := G0 * exp (Cmod w) * inv_fact n * (Rabs (fst w) + snd w) ^ n). assert (AP : 0 < A).
  { unfold A. repeat apply Rmult_lt_0_compat; try apply exp_pos; [apply inv_fact_pos|]. apply pow_lt. pose proof (Rabs_pos (fst w)). lra. }
  destruct (nr_zero (Cmod w / (2 * PI))) with (e := e / A) as (K0 & HK0).
  - split; [apply Rdiv_le_0_compat; lra|apply Rlt_div_l; lra].
  - apply Rdiv_lt_0_compat; assumption.
  - exists (n + S K0)%nat. intros K HK. replace K with (n + (K - n))%nat by lia. eapply Rle_lt_trans; [apply (unity_rate n w (K - n) (Cmod w)); try assumption; try lia; lra|].
    specialize (HK0 (K - n)%nat ltac:(lia)). apply Rmult_lt_compat_r with (r := A) in HK0; [|exact AP]. replace (e / A * A) with e in HK0 by (field; lra).
    eapply Rle_lt_trans; [|exact HK0]. right. unfold A. ring.
Qed.

(** ** truncation error against the last term *)
Lemma zeta_mono a b : (2 <= a <= b)%nat -> ReLi b 1 <= ReLi a 1.
Proof.
  intros H. pose proof (ReLi_at_1 a ltac:(lia)) as A. pose proof (ReLi_at_1 b ltac:(lia)) as B.
  rewrite <- (is_series_unique _ _ A), <- (is_series_unique _ _ B). apply Series_le; [|eexists; exact A].
  intros k. unfold zterm. split; [left; apply Rinv_0_lt_compat, pow_lt, lt_0_INR; lia|].
  apply Rinv_le_contravar; [apply pow_lt, lt_0_INR; lia|]. apply Rle_pow; [|lia]. rewrite S_INR. pose proof (pos_INR k). lra.
Qed.
Lemma zt_odd m : (1 <= m)%nat -> Rabs (zt (1 - 2 * Z.of_nat m)) = 2 * INR (fact (2 * m - 1)) * ReLi (2 * m) 1 / (2 * PI) ^ (2 * m).
Proof.
  intros Hm. unfold zt. destruct (Z.leb_spec 2 (1 - 2 * Z.of_nat m)); [lia|]. destruct (Z.eqb_spec (1 - 2 * Z.of_nat m) 0); [lia|].
  replace (1 - (1 - 2 * Z.of_nat m))%Z with (Z.of_nat (2 * m)) by lia. rewrite Nat2Z.id, <- INR_IZR_INZ. unfold bern. rewrite asl_even by exact Hm.
  pose proof (tpk (2 * m)) as T. pose proof (zeta_le2 (2 * m) ltac:(lia)) as Z2. pose proof (not_0_INR (2 * m) ltac:(lia)) as N2. pose proof (INR_fact_lt_0 (2 * m - 1)) as FP.
  replace (fact (2 * m)) with (2 * m * fact (2 * m - 1))%nat by (replace (2 * m)%nat with (S (2 * m - 1)) at 3 by lia; rewrite fact_simpl; f_equal; lia).
  rewrite mult_INR. set (F := INR (fact (2 * m - 1))) in *. set (z := ReLi (2 * m) 1) in *. set (t := (2 * PI) ^ (2 * m)) in *. set (i := INR (2 * m)) in *.
  replace (- (-2 * (i * F) * ((-1) ^ m * z) / t) / i) with ((-1) ^ m * (2 * F * z / t)) by (field; split; lra).
  rewrite Rabs_mult, pow_1_abs, Rmult_1_l, Rabs_pos_eq; [reflexivity|]. apply Rdiv_le_0_compat; [|exact T]. repeat apply Rmult_le_pos; lra.
Qed.
Lemma zt_even m : (1 <= m)%nat -> zt (- 2 * Z.of_nat m) = 0.
Proof.
  intros Hm. unfold zt. destruct (Z.leb_spec 2 (-2 * Z.of_nat m)); [lia|]. destruct (Z.eqb_spec (-2 * Z.of_nat m) 0); [lia|].
  replace (Z.to_nat (1 - -2 * Z.of_nat m)) with (2 * m + 1)%nat by lia. rewrite (bernoulli_odd bern m bern_is_bernoulli Hm). unfold Rdiv. ring.
Qed.
Lemma tterm_mod n w j : (1 <= n)%nat -> (n < j)%nat -> Cmod (tterm n w j) = Rabs (zt (Z.of_nat n - Z.of_nat j)) * (inv_fact j * Cmod w ^ j).
Proof.
  intros Hn Hj. unfold tterm. destruct (Nat.eqb_spec j (n - 1)); [lia|]. rewrite div_fact, !Cmod_mult, !Cmod_R, Cpow_mod, (Rabs_pos_eq (inv_fact j)) by (left; apply inv_fact_pos). reflexivity.
Qed.
Lemma tterm_even n w m : (1 <= n)%nat -> (1 <= m)%nat -> tterm n w (n + 2 * m) = RtoC 0.
Proof.
  intros Hn Hm. unfold tterm. destruct (Nat.eqb_spec (n + 2 * m) (n - 1)); [lia|]. replace (Z.of_nat n - Z.of_nat (n + 2 * m))%Z with (-2 * Z.of_nat m)%Z by lia.
  rewrite zt_even by exact Hm. ring.
Qed.
Lemma tterm_step n w m : (1 <= n)%nat -> (1 <= m)%nat -> Cmod (tterm n w (n + 2 * m + 1)) <= (rw w * rw w) * Cmod (tterm n w (n + 2 * m - 1)).
Proof.
  intros Hn Hm. rewrite !tterm_mod by lia.
  replace (Z.of_nat n - Z.of_nat (n + 2 * m + 1))%Z with (1 - 2 * Z.of_nat (S m))%Z by lia. replace (Z.of_nat n - Z.of_nat (n + 2 * m - 1))%Z with (1 - 2 * Z.of_nat m)%Z by lia.
  rewrite !zt_odd by lia. set (j := (n + 2 * m - 1)%nat). replace (n + 2 * m + 1)%nat with (S (S j)) by (unfold j; lia).
  replace (2 * S m - 1)%nat with (S (S (2 * m - 1))) by lia. replace (2 * S m)%nat with (S (S (2 * m))) by lia. rewrite !fact_simpl, !mult_INR.
  pose proof (tpk (2 * m)) as T. pose proof (zeta_le2 (S (S (2 * m))) ltac:(lia)) as Z2. pose proof (zeta_mono (2 * m) (S (S (2 * m))) ltac:(lia)) as ZM. pose proof (INR_fact_lt_0 (2 * m - 1)) as FP.
  set (F := INR (fact (2 * m - 1))) in *. set (z := ReLi (2 * m) 1) in *. set (z' := ReLi (S (S (2 * m))) 1) in *.
  assert (IE : inv_fact (S (S j)) = inv_fact j * / (INR (S j) * INR (S (S j)))).
  { rewrite <- (if_S j), <- (if_S (S j)). pose proof (not_0_INR (S j) ltac:(lia)). pose proof (not_0_INR (S (S j)) ltac:(lia)). field. split; assumption. }
  rewrite IE. pose proof (inv_fact_pos j) as IP. pose proof (Cmod_ge_0 w) as W0. pose proof (pow_le (Cmod w) j W0) as WJ.
  assert (AB : INR (S (2 * m - 1)) * INR (S (S (2 * m - 1))) <= INR (S j) * INR (S (S j))) by (apply Rmult_le_compat; try apply pos_INR; apply le_INR; unfold j; lia).
  assert (J1 : 0 < INR (S j) * INR (S (S j))) by (apply Rmult_lt_0_compat; apply lt_0_INR; lia).
  set (a := INR (S (2 * m - 1)) * INR (S (S (2 * m - 1)))) in *. set (b := INR (S j) * INR (S (S j))) in *. pose proof PI_RGT_0 as PP.
  assert (A0 : 0 <= a) by (apply Rmult_le_pos; apply pos_INR).
  replace (2 * (INR (S (S (2 * m - 1))) * (INR (S (2 * m - 1)) * F)) * z' / (2 * PI) ^ S (S (2 * m)) * (inv_fact j * / b * Cmod w ^ S (S j)))
    with ((rw w * rw w) * (2 * F / (2 * PI) ^ (2 * m) * (inv_fact j * Cmod w ^ j)) * (z' * (a * / b))).
  2:{ unfold a, rw. cbn [pow]. field. repeat split; lra. }
  replace (rw w * rw w * (2 * F * z / (2 * PI) ^ (2 * m) * (inv_fact j * Cmod w ^ j))) with ((rw w * rw w) * (2 * F / (2 * PI) ^ (2 * m) * (inv_fact j * Cmod w ^ j)) * z) by (field; lra).
  apply Rmult_le_compat_l.
  - pose proof (rw_pos w). apply Rmult_le_pos; [apply Rmult_le_pos; assumption|]. apply Rmult_le_pos; [apply Rdiv_le_0_compat; lra|apply Rmult_le_pos; lra].
  - assert (Q : a * / b <= 1) by (apply Rle_div_l; lra). assert (Q0 : 0 <= a * / b) by (apply Rdiv_le_0_compat; assumption).
    apply Rle_trans with (z' * 1); [apply Rmult_le_compat_l; lra|lra].
Qed.
Lemma tail_even n w m : (1 <= n)%nat -> (1 <= m)%nat -> Cmod w < 2 * PI -> forall i,
  Cmod (Cminus (Csum (tterm n w) (n + 2 * m + 2 * i)) (Csum (tterm n w) (n + 2 * m))) <= Cmod (tterm n w (n + 2 * m - 1)) * ((rw w * rw w) / (1 - rw w * rw w)) - Cmod (tterm n w (n + 2 * (m + i) - 1)) * ((rw w * rw w) / (1 - rw w * rw w)).
Proof.
  intros Hn Hm Hw. pose proof PI_RGT_0 as PP. assert (R1 : rw w < 1) by (unfold rw; apply Rlt_div_l; lra). pose proof (rw_pos w) as R0.
  assert (RR : 0 <= rw w * rw w < 1) by nra. set (r := rw w * rw w) in *. 
  induction i as [|i IH].
  - replace (n + 2 * m + 2 * 0)%nat with (n + 2 * m)%nat by lia. replace (m + 0)%nat with m by lia. replace (Cminus (Csum (tterm n w) (n + 2 * m)) (Csum (tterm n w) (n + 2 * m))) with (RtoC 0) by ring. rewrite Cmod_0. lra.
  - replace (n + 2 * m + 2 * S i)%nat with (S (S (n + 2 * (m + i)))) by lia. cbn [Csum].
    replace (n + 2 * m + 2 * i)%nat with (n + 2 * (m + i))%nat in IH by lia. rewrite (tterm_even n w (m + i)) by lia.
    set (a := Csum (tterm n w) (n + 2 * (m + i))) in *. set (b := Csum (tterm n w) (n + 2 * m)) in *. pose proof (tterm_step n w (m + i) Hn ltac:(lia)) as ST. fold r in ST.
    replace (S (n + 2 * (m + i))) with (n + 2 * (m + i) + 1)%nat by lia. replace (n + 2 * (m + S i) - 1)%nat with (n + 2 * (m + i) + 1)%nat by lia.
    set (t := tterm n w (n + 2 * (m + i) + 1)) in *. set (u := Cmod (tterm n w (n + 2 * (m + i) - 1))) in *.
    replace (Cminus (Cplus (Cplus a (RtoC 0)) t) b) with (Cplus (Cminus a b) t) by ring. eapply Rle_trans; [apply Cmod_triangle|].
    assert (E : Cmod t * (1 + r / (1 - r)) <= u * (r / (1 - r))).
    { replace (1 + r / (1 - r)) with (/ (1 - r)) by (field; lra). unfold Rdiv. rewrite <- Rmult_assoc. apply Rmult_le_compat_r; [left; apply Rinv_0_lt_compat; lra|]. lra. }
    lra.
Qed.
Theorem unity_tail_up n w m : (1 <= n)%nat -> (1 <= m)%nat -> 0 < snd w <= PI -> Cmod w < 2 * PI ->
  Cmod (Cminus (CLi n (Cexp w)) (Csum (tterm n w) (n + 2 * m))) <= Cmod (tterm n w (n + 2 * m - 1)) * ((rw w * rw w) / (1 - rw w * rw w)).
Proof.
  intros Hn Hm Hy Hw. pose proof PI_RGT_0 as PP. assert (R1 : rw w < 1) by (unfold rw; apply Rlt_div_l; lra). pose proof (rw_pos w) as R0.
  apply Rnot_lt_le. intros LT. set (B := Cmod (tterm n w (n + 2 * m - 1)) * (rw w * rw w / (1 - rw w * rw w))) in *.
  destruct (unity_conv n w Hn Hy Hw (Cmod (Cminus (CLi n (Cexp w)) (Csum (tterm n w) (n + 2 * m))) - B) ltac:(lra)) as (K0 & HK).
  specialize (HK (n + 2 * m + 2 * K0)%nat ltac:(lia)). pose proof (tail_even n w m Hn Hm Hw K0) as T. fold B in T.
  assert (T2 : 0 <= Cmod (tterm n w (n + 2 * (m + K0) - 1)) * (rw w * rw w / (1 - rw w * rw w))).
  { apply Rmult_le_pos; [apply Cmod_ge_0|]. assert (rw w * rw w < 1) by nra. apply Rdiv_le_0_compat; [apply Rmult_le_pos; lra|lra]. }
  set (S1 := Csum (tterm n w) (n + 2 * m + 2 * K0)) in *. set (S0 := Csum (tterm n w) (n + 2 * m)) in *. set (L := CLi n (Cexp w)) in *.
  pose proof (Cmod_triangle (Cminus L S1) (Cminus S1 S0)) as TR. replace (Cplus (Cminus L S1) (Cminus S1 S0)) with (Cminus L S0) in TR by ring. lra.
Qed.
