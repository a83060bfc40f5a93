(** * Integer Taylor polynomial of exp and the reference expansion near 1, level 0.
    Nothing here mentions the code. *)
From Coq Require Import ZArith Reals List Bool Lra Lia Psatz.
From Coquelicot Require Import Coquelicot.
From Verif Require Import NumR Spec Cplx Clog_series Chain Polylog Ccalc CLi CLi_disc CLi_inv Unity Rest Cpoly CLi_unity.
Import ListNotations.
Local Open Scope R_scope.

(** M!/k! for k..k+n, M = k+n *)
Fixpoint rl (k : Z) (n : nat) : list Z := match n with O => [1%Z] | S n' => let t := rl (k + 1) n' in ((k + 1) * hd 0 t)%Z :: t end.
Lemma rl_hd n : forall k, IZR (hd 0%Z (rl (Z.of_nat k) n)) * INR (fact k) = INR (fact (k + n)).
Proof.
  induction n as [|n IH]; intros k; [cbn [rl hd]; rewrite Nat.add_0_r; ring|].
  cbn [rl hd]. specialize (IH (S k)). rewrite mult_IZR. replace (Z.of_nat k + 1)%Z with (Z.of_nat (S k)) by lia. rewrite <- INR_IZR_INZ.
  replace (k + S n)%nat with (S k + n)%nat by lia. rewrite <- IH, (fact_simpl k), mult_INR. ring.
Qed.
Lemma rl_ok n x : forall k, cz (rl (Z.of_nat k) n) x = Cmult (RtoC (INR (fact (k + n)))) (Csum (fun j => Cmult (RtoC (inv_fact (k + j))) (Cpow x j)) (S n)).
Proof.
  induction n as [|n IH]; intros k.
  - cbn [rl]. unfold cz. cbn [map cpev Csum Cpow]. rewrite !Nat.add_0_r. unfold inv_fact. replace (RtoC 1) with (RtoC (INR (fact k) * / INR (fact k))) at 1 by (f_equal; apply Rinv_r, INR_fact_neq_0).
    rewrite RtoC_mult. ring.
  - cbn [rl]. rewrite Csum_shift, cz_cons. change (Cpow x 0) with (RtoC 1). rewrite Nat.add_0_r.
    pose proof (rl_hd (S n) k) as HD. cbn [rl hd] in HD. replace (Z.of_nat k + 1)%Z with (Z.of_nat (S k)) in * by lia. rewrite IH. clear IH.
    replace (S k + n)%nat with (k + S n)%nat in * by lia. set (F := INR (fact (k + S n))) in *.
    replace (IZR (Z.of_nat (S k) * hd 0%Z (rl (Z.of_nat (S k)) n))) with (F * inv_fact k) by (rewrite <- HD; unfold inv_fact; field; apply INR_fact_neq_0).
    rewrite RtoC_mult. assert (E : Csum (fun m => Cmult (RtoC (inv_fact (k + S m))) (Cpow x (S m))) (S n) = Cmult x (Csum (fun j => Cmult (RtoC (inv_fact (S k + j))) (Cpow x j)) (S n))).
    { rewrite Csum_scal. apply Csum_ext_lt. intros i _. rewrite Cpow_S. replace (S k + i)%nat with (k + S i)%nat by lia. ring. }
    cbv beta. rewrite E. ring.
Qed.
Lemma rl0_ok M x : cz (rl 0 M) x = Cmult (RtoC (INR (fact M))) (Csum (expterm x) (S M)).
Proof. exact (rl_ok M x 0). Qed.
Lemma rl0_F M : INR (fact M) = IZR (hd 0%Z (rl 0 M)).
Proof. pose proof (rl_hd M 0) as H. cbn [fact] in H. change (Z.of_nat 0) with 0%Z in H. rewrite Nat.add_0_l in H. rewrite <- H. cbn [INR]. ring. Qed.

Lemma cos_sin_half y : 1 - cos y = 2 * (sin (y / 2) * sin (y / 2)).
Proof. replace y with (2 * (y / 2)) at 1 by field. rewrite cos_2a_sin. ring. Qed.
(** lower bound of |e^w - 1| *)
Lemma jordan x : 0 <= x <= PI / 2 -> x * (2 / PI) <= sin x.
Proof.
  intros Hx. pose proof PI_RGT_0 as P. destruct (Req_dec x 0) as [->|N0]; [rewrite sin_0; lra|]. destruct (Req_dec x (PI / 2)) as [->|N1]; [rewrite sin_PI2; right; field; lra|].
  apply Rnot_lt_le. intros LT.
  set (g := fun t => sin t - t * (2 / PI)).
  assert (DG : forall u, is_derive g u (cos u - 2 / PI)) by (intros u; unfold g; auto_derive; [trivial|ring]).
  destruct (MVT_gen g 0 x (fun t => cos t - 2 / PI)) as (c & Hc & E).
  { intros u _. apply DG. } { intros u _. apply (continuity_pt_filterlim g u), (ex_derive_continuous g). eexists. apply DG. }
  destruct (MVT_gen g x (PI / 2) (fun t => cos t - 2 / PI)) as (d & Hd & E').
  { intros u _. apply DG. } { intros u _. apply (continuity_pt_filterlim g u), (ex_derive_continuous g). eexists. apply DG. }
  rewrite Rmin_left, Rmax_right in Hc by lra. rewrite Rmin_left, Rmax_right in Hd by lra.
  unfold g in E, E'. rewrite sin_0 in E. rewrite sin_PI2 in E'. replace (PI / 2 * (2 / PI)) with 1 in E' by (field; lra).
  assert (C1 : cos c - 2 / PI < 0). { apply Rnot_le_lt. intros Q. assert (0 <= (cos c - 2 / PI) * (x - 0)) by (apply Rmult_le_pos; lra). lra. }
  assert (C2 : 0 < cos d - 2 / PI). { apply Rnot_le_lt. intros Q. assert ((cos d - 2 / PI) * (PI / 2 - x) <= 0) by (apply Rmult_le_0_r || nra; lra). lra. }
  assert (cos d <= cos c) by (apply cos_decr_1; lra). lra.
Qed.
Lemma expm1_low w r : 0 <= r -> Rabs (fst w) <= r -> 0 <= snd w <= PI -> exp (- r) * (2 / PI) * Cmod w <= Cmod (Cminus (Cexp w) (RtoC 1)).
Proof.
  intros Hr Ha Hb. destruct w as [a b]. cbn [fst snd] in *. pose proof PI_RGT_0 as P.
  rewrite !Cmod_alt. cbn [fst snd Cexp Cminus Cplus Copp RtoC].
  set (k := exp (- r) * (2 / PI)). assert (K0 : 0 <= k). { unfold k. apply Rmult_le_pos; [left; apply exp_pos|]. apply Rle_div_r; lra. }
  rewrite <- (sqrt_square k) at 1 by exact K0. rewrite <- sqrt_mult_alt by (apply Rmult_le_pos; exact K0). apply sqrt_le_1_alt.
  assert (E1 : exp (- r) <= exp a). { apply exp_mono. pose proof (Rabs_def2 a (r + 1)). assert (- a <= Rabs a) by (rewrite <- Rabs_Ropp; apply Rle_abs). lra. }
  assert (ER : exp (- r) <= 1). { rewrite <- exp_0. apply exp_mono. lra. }
  pose proof (exp_pos (- r)) as EP. set (q := exp (- r)) in *.
  assert (A : q * q * (a * a) <= (exp a - 1) * (exp a - 1)).
  { assert (q * Rabs a <= Rabs (exp a - 1)).
    { destruct (Rle_dec 0 a) as [H|H].
      - rewrite Rabs_pos_eq by exact H. pose proof (exp_ineq1_le a). rewrite Rabs_pos_eq by lra. nra.
      - pose proof (exp_ineq1_le (- a)) as X. assert (Y : exp a * exp (- a) = 1) by (rewrite <- exp_plus, Rplus_opp_r, exp_0; reflexivity).
        pose proof (exp_pos a). rewrite (Rabs_left1 a) by lra. assert (exp a <= 1) by (rewrite <- exp_0; apply exp_mono; lra). rewrite Rabs_left1 by lra.
        assert (exp a * (1 + - a) <= 1) by (rewrite <- Y; apply Rmult_le_compat_l; lra). nra. }
    assert (0 <= q * Rabs a) by (apply Rmult_le_pos; [lra|apply Rabs_pos]).
    assert (Q := Rmult_le_compat _ _ _ _ H0 H0 H H). rewrite <- (Rabs_mult (exp a - 1)), (Rabs_pos_eq ((exp a - 1) * (exp a - 1))) in Q by apply (Rle_0_sqr (exp a - 1)).
    replace (q * Rabs a * (q * Rabs a)) with (q * q * (Rabs a * Rabs a)) in Q by ring. rewrite <- Rabs_mult, (Rabs_pos_eq (a * a)) in Q by apply (Rle_0_sqr a). exact Q. }
  pose proof (jordan (b / 2) ltac:(lra)) as J. assert (SJ : 0 <= b / 2 * (2 / PI)). { apply Rmult_le_pos; [lra|]. apply Rle_div_r; lra. }
  assert (B : b / 2 * (2 / PI) * (b / 2 * (2 / PI)) <= sin (b / 2) * sin (b / 2)) by (apply Rmult_le_compat; assumption).
  pose proof (cos_sin_half b) as CS. pose proof (sin2_cos2 b) as SC. unfold Rsqr in SC.
  replace ((exp a * cos b + - (1)) * (exp a * cos b + - (1)) + (exp a * sin b + - 0) * (exp a * sin b + - 0)) with ((exp a - 1) * (exp a - 1) + 4 * exp a * (sin (b / 2) * sin (b / 2))).
  2:{ replace (4 * exp a * (sin (b / 2) * sin (b / 2))) with (2 * exp a * (1 - cos b)) by (rewrite CS; ring).
      replace ((exp a * cos b + - (1)) * (exp a * cos b + - (1)) + (exp a * sin b + - 0) * (exp a * sin b + - 0)) with (exp a * exp a * (sin b * sin b + cos b * cos b) - 2 * exp a * cos b + 1) by ring. rewrite SC. ring. }
  set (s2 := sin (b / 2) * sin (b / 2)) in *. clearbody s2. set (h := 2 / PI) in *.
  assert (H1 : 0 <= h <= 1). { unfold h. pose proof PI2_1. split; [apply Rle_div_r; lra|apply Rle_div_l; lra]. }
  unfold k. replace (q * h * (q * h) * (a * a + b * b)) with (h * h * (q * q * (a * a)) + 4 * (q * q) * (b / 2 * h * (b / 2 * h))) by field.
  assert (q * q <= exp a) by nra. assert (P1 : 0 <= q * q * (a * a)) by (apply Rmult_le_pos; [nra|apply (Rle_0_sqr a)]). assert (h * h <= 1) by nra.
  assert (h * h * (q * q * (a * a)) <= 1 * (q * q * (a * a))) by (apply Rmult_le_compat_r; assumption).
  assert (P2 : 0 <= b / 2 * h * (b / 2 * h)) by (apply Rmult_le_pos; exact SJ).
  assert (4 * (q * q) * (b / 2 * h * (b / 2 * h)) <= 4 * exp a * s2) by (apply Rmult_le_compat; nra). lra.
Qed.
