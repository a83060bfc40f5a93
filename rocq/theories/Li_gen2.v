(** * Li(n,z), orders n >= 7: the expansion about 1, the inversion, and the dispatch *)
From Coq Require Import ZArith Reals List Bool Lra Lia Psatz.
From Coquelicot Require Import Coquelicot.
From Flocq Require Import Core.Raux.
From Interval Require Import Tactic.
From Verif Require Import Num NumR Outcome Spec Eval_R Consts Model_Tables Model_Zeta Model_LiC Model_Li Proof_Int Proof_LiInt Cplx Proof_Horner Clog_series Chain Polylog Polylog_series Clausen Zeta_num Bern Bern_num Harmonic Properties_F Properties_G Properties_H Properties_I Rest Unity Properties_K Properties_M Ccalc CLi CLi_disc CLi_inv Cpoly CLi_unity CLi_exp CLi_gen CLi_acc Li_gen.
Import ListNotations.
Local Open Scope R_scope.

(** ** the expansion in both half planes *)
Lemma CC z : Cconj (Cconj z) = z. Proof. destruct z; unfold Cconj; cbn; f_equal; ring. Qed.
Lemma tterm_conj n w j : snd w <> 0 -> tterm n (Cconj w) j = Cconj (tterm n w j).
Proof.
  intros H. unfold tterm. rewrite !div_fact, !Cconj_mult, Cpow_conj, Cconj_R. apply (f_equal2 Cmult); [|reflexivity]. destruct (j =? n - 1)%nat; [|rewrite Cconj_R; reflexivity].
  rewrite Cconj_minus, Cconj_R. f_equal. replace (Copp (Cconj w)) with (Cconj (Copp w)) by (destruct w; unfold Cconj, Copp; cbn; reflexivity). apply Clog_conj. destruct w; cbn in *; lra.
Qed.
Lemma Csum_conj f n : Csum (fun j => Cconj (f j)) n = Cconj (Csum f n).
Proof. induction n as [|n IH]; cbn [Csum]; [rewrite Cconj_R; reflexivity|rewrite IH, Cconj_plus; reflexivity]. Qed.
Theorem unity_tail n w m : (1 <= n)%nat -> (1 <= m)%nat -> snd w <> 0 -> Rabs (snd w) <= PI -> Cmod w < 2 * PI ->
  Cmod (Cminus (CLi n (Cexp w)) (Csum (tterm n w) (n + 2 * m))) <= Cmod (tterm n w (n + 2 * m - 1)) * ((rw w * rw w) / (1 - rw w * rw w)).
Proof.
  intros Hn Hm H0 H1 H2. destruct (Rlt_dec 0 (snd w)) as [P|P]; [apply unity_tail_up; try assumption; rewrite Rabs_pos_eq in H1; lra|].
  assert (Q : snd w < 0) by lra. rewrite Rabs_left in H1 by exact Q.
  assert (RW : rw (Cconj w) = rw w) by (unfold rw; rewrite Cmod_conj'; reflexivity).
  pose proof (unity_tail_up n (Cconj w) m Hn Hm ltac:(unfold Cconj; cbn [snd]; lra) ltac:(rewrite Cmod_conj'; exact H2)) as U. rewrite RW, tterm_conj, Cmod_conj' in U by exact H0.
  rewrite (Csum_ext _ (fun j => Cconj (tterm n w j))) in U by (intros; apply tterm_conj; exact H0). rewrite Csum_conj in U.
  assert (ES : Cexp (Cconj w) = Cconj (Cexp w)) by (destruct w as [a b]; unfold Cexp, Cconj; cbn [fst snd]; rewrite cos_neg, sin_neg; f_equal; ring).
  rewrite ES, CLi_conj in U.
  - rewrite <- Cconj_minus, Cmod_conj' in U. exact U.
  - assert (Sl : slit (Cexp (Cconj w))) by (destruct w as [a b]; apply Cexp_slit; cbn in *; pose proof PI_RGT_0; lra). rewrite ES in Sl. apply Cconj_slit in Sl. rewrite CC in Sl. exact Sl.
Qed.

(** ** the constants of the code in the expansion *)
Lemma harm_Hm n : (1 <= n)%nat -> harm n = Hm n.
Proof.
  intros H. unfold harm. destruct n as [|n]; [lia|]. replace (S n - 1)%nat with n by lia. clear H. induction n as [|n IH]; [cbn; lra|].
  cbn [sum_f_R0]. rewrite IH. reflexivity.
Qed.
Section Dev.
Variables (zc : Z -> R) (h : R) (n : nat) (v : C).
Hypothesis Hn : (7 <= n)%nat.
Hypothesis ZA : zacc zc.
Hypothesis HA : Rabs (h - harm (n - 1)) <= 6 / 10 ^ 18.
Let x := Cmod v.
Notation U := (uterm zc h n v (Clog (Copp v))).
Notation T := (tterm n v).
Notation D j := (Cmod (Cminus (U j) (T j))).
Lemma x0 : 0 <= x. Proof. apply Cmod_ge_0. Qed.
Lemma pw_mod j : Cmod (Cdiv (Cpow v j) (RtoC (INR (fact j)))) = x ^ j * inv_fact j.
Proof. rewrite div_fact, Cmod_mult, Cmod_R, Cpow_mod, Rabs_pos_eq by (left; apply inv_fact_pos). fold x. ring. Qed.
Lemma D_le j c : (if (j =? n - 1)%nat then Rabs (h - Hm (n - 1)) else Rabs (zc (Z.of_nat n - Z.of_nat j)%Z - zt (Z.of_nat n - Z.of_nat j))) <= c -> D j <= c * (x ^ j * inv_fact j).
Proof.
  intros H. unfold uterm, tterm. set (p := Cdiv (Cpow v j) (RtoC (INR (fact j)))).
  assert (P : 0 <= x ^ j * inv_fact j) by (apply Rmult_le_pos; [apply pow_le, x0|left; apply inv_fact_pos]).
  destruct (j =? n - 1)%nat.
  - replace (Cminus (Cmult (Cminus (RtoC h) (Clog (Copp v))) p) (Cmult (Cminus (RtoC (Hm (n - 1))) (Clog (Copp v))) p)) with (Cmult (RtoC (h - Hm (n - 1))) p) by (rewrite RtoC_minus; ring).
    rewrite Cmod_mult, Cmod_R. unfold p. rewrite pw_mod. apply Rmult_le_compat_r; assumption.
  - match goal with |- Cmod (Cminus (Cmult (RtoC ?a) p) (Cmult (RtoC ?b) p)) <= _ => replace (Cminus (Cmult (RtoC a) p) (Cmult (RtoC b) p)) with (Cmult (RtoC (a - b)) p) by (rewrite RtoC_minus; ring) end.
    rewrite Cmod_mult, Cmod_R. unfold p. rewrite pw_mod. apply Rmult_le_compat_r; assumption.
Qed.
Lemma D_low j : (j < n)%nat -> D j <= 67 / 10 ^ 18 * (x ^ j * inv_fact j).
Proof.
  intros H. apply D_le. destruct (Nat.eqb_spec j (n - 1)) as [E|E]; [rewrite <- harm_Hm by lia; eapply Rle_trans; [exact HA|lra]|].
  destruct ZA as (_ & Z2 & _). specialize (Z2 (n - j)%nat ltac:(lia)). replace (Z.of_nat (n - j)) with (Z.of_nat n - Z.of_nat j)%Z in Z2 by lia.
  unfold zt. destruct (Z.leb_spec 2 (Z.of_nat n - Z.of_nat j)); [|lia]. replace (Z.to_nat (Z.of_nat n - Z.of_nat j)) with (n - j)%nat by lia. exact Z2.
Qed.
Lemma D_n : D n = 0.
Proof.
  destruct ZA as (Z0 & _). unfold uterm, tterm. destruct (Nat.eqb_spec n (n - 1)); [lia|]. rewrite Z.sub_diag, Z0. unfold zt. cbn [Z.leb Z.compare Z.eqb].
  match goal with |- Cmod (Cminus ?a ?b) = 0 => replace (Cminus a b) with (RtoC 0) by ring end. apply Cmod_0.
Qed.
Lemma U_even i : (1 <= i)%nat -> U (n + 2 * i)%nat = RtoC 0.
Proof.
  intros H. destruct ZA as (_ & _ & _ & Z4). unfold uterm. destruct (Nat.eqb_spec (n + 2 * i) (n - 1)); [lia|].
  rewrite Z4; [ring|lia|]. replace (Z.of_nat n - Z.of_nat (n + 2 * i))%Z with (2 * (- Z.of_nat i))%Z by lia. rewrite Z.even_mul. reflexivity.
Qed.
Lemma D_even i : (1 <= i)%nat -> D (n + 2 * i)%nat = 0.
Proof. intros H. rewrite U_even, tterm_even by lia. replace (Cminus (RtoC 0) (RtoC 0)) with (RtoC 0) by ring. apply Cmod_0. Qed.
Lemma D_odd i : (1 <= i <= 130)%nat -> D (n + 2 * i - 1)%nat <= 60 / 10 ^ 18 * Cmod (T (n + 2 * i - 1)%nat).
Proof.
  intros H. destruct ZA as (_ & _ & Z3 & _). specialize (Z3 bern i bern_is_bernoulli H). rewrite tterm_mod by lia.
  assert (E : zt (Z.of_nat n - Z.of_nat (n + 2 * i - 1)) = - bern (2 * i)%nat / INR (2 * i)).
  { unfold zt. replace (Z.of_nat n - Z.of_nat (n + 2 * i - 1))%Z with (1 - 2 * Z.of_nat i)%Z by lia. destruct (Z.leb_spec 2 (1 - 2 * Z.of_nat i)); [lia|]. destruct (Z.eqb_spec (1 - 2 * Z.of_nat i) 0); [lia|].
    replace (1 - (1 - 2 * Z.of_nat i))%Z with (Z.of_nat (2 * i)) by lia. rewrite Nat2Z.id, <- INR_IZR_INZ. reflexivity. }
  eapply Rle_trans; [apply D_le with (c := 60 / 10 ^ 18 * Rabs (zt (Z.of_nat n - Z.of_nat (n + 2 * i - 1))))|].
  - destruct (Nat.eqb_spec (n + 2 * i - 1) (n - 1)); [lia|]. rewrite E. replace (Z.of_nat n - Z.of_nat (n + 2 * i - 1))%Z with (1 - 2 * Z.of_nat i)%Z by lia. exact Z3.
  - fold x. right. ring.
Qed.
Hypothesis X : x <= 3.2.
Lemma rw_le : 0 <= rw v * rw v <= 0.26.
Proof.
  pose proof PI_RGT_0 as PP. pose proof (rw_pos v) as R0. assert (R1 : rw v <= 0.5094) by (unfold rw; apply Rle_div_l; [lra|]; fold x; assert (3.1415 <= PI) by interval; lra). split; [apply Rmult_le_pos; lra|].
  apply Rle_trans with (0.5094 * 0.5094); [apply Rmult_le_compat; lra|lra].
Qed.
Lemma T_first : Cmod (T (n + 1)%nat) <= exp x / 12.
Proof.
  rewrite tterm_mod by lia. replace (Z.of_nat n - Z.of_nat (n + 1))%Z with (1 - 2 * Z.of_nat 1)%Z by lia.
  assert (E : Rabs (zt (1 - 2 * Z.of_nat 1)) = / 12).
  { assert (B2 : bern 2 = / 6). { pose proof (beta_rec 2 ltac:(lia)) as BR. cbn [sum_f_R0 Nat.sub] in BR. rewrite beta_0, beta_1 in BR. unfold beta, inv_fact in BR. cbn [fact Nat.mul Nat.add INR] in BR. lra. }
    change (zt (1 - 2 * Z.of_nat 1)) with (- bern 2 / 2). rewrite B2. rewrite Rabs_left; lra. }
  rewrite E. fold x. assert (S1 : x ^ (n + 1) * inv_fact (n + 1) <= exp x).
  { eapply Rle_trans; [|apply (exp_partial x (n + 1) x0)]. replace (n + 1)%nat with (S n) by lia. cbn [sum_f_R0]. assert (0 <= sum_f_R0 (fun m => x ^ m * inv_fact m) n); [|lra].
    apply cond_pos_sum. intros k. apply Rmult_le_pos; [apply pow_le, x0|left; apply inv_fact_pos]. }
  lra.
Qed.
Lemma dev_low m : (m <= n)%nat -> Cmod (Cminus (Csum U m) (Csum T m)) <= 67 / 10 ^ 18 * exp x.
Proof.
  intros H. rewrite Csum_minus. destruct m as [|m]; [cbn [Csum]; rewrite Cmod_0; pose proof (exp_pos x); lra|].
  eapply Rle_trans; [apply Csum_mod|]. apply Rle_trans with (67 / 10 ^ 18 * sum_f_R0 (fun m => x ^ m * inv_fact m) m).
  - rewrite scal_sum. apply sum_Rle. intros j Hj. rewrite Rmult_comm. apply D_low. lia.
  - apply Rmult_le_compat_l; [lra|]. apply exp_partial, x0.
Qed.
Lemma dev_up r2 m : r2 = rw v * rw v -> (1 <= m <= 130)%nat ->
  Cmod (Cminus (Csum U (n + 2 * m)) (Csum T (n + 2 * m))) <= 67 / 10 ^ 18 * exp x + 60 / 10 ^ 18 * (Cmod (T (n + 1)%nat) / (1 - r2) - Cmod (T (n + 2 * m - 1)%nat) * (r2 / (1 - r2))).
Proof.
  intros R2. pose proof rw_le as RL. rewrite <- R2 in RL. induction m as [|m IH]; intros H; [lia|]. destruct (Nat.eq_dec m 0) as [->|M0].
  - replace (n + 2 * 1)%nat with (S (S n)) by lia. replace (S (S n) - 1)%nat with (n + 1)%nat by lia. change (Csum U (S (S n))) with (Cplus (Cplus (Csum U n) (U n)) (U (S n))). change (Csum T (S (S n))) with (Cplus (Cplus (Csum T n) (T n)) (T (S n))).
    replace (Cminus (Cplus (Cplus (Csum U n) (U n)) (U (S n))) (Cplus (Cplus (Csum T n) (T n)) (T (S n)))) with (Cplus (Cplus (Cminus (Csum U n) (Csum T n)) (Cminus (U n) (T n))) (Cminus (U (S n)) (T (S n)))) by ring.
    eapply Rle_trans; [apply Cmod_triangle|]. pose proof (Cmod_triangle (Cminus (Csum U n) (Csum T n)) (Cminus (U n) (T n))) as TR. rewrite D_n in TR.
    pose proof (dev_low n ltac:(lia)) as DL. pose proof (D_odd 1 ltac:(lia)) as DO. replace (n + 2 * 1 - 1)%nat with (S n) in DO by lia. replace (n + 1)%nat with (S n) by lia.
    replace (Cmod (T (S n)) / (1 - r2) - Cmod (T (S n)) * (r2 / (1 - r2))) with (Cmod (T (S n))) by (field; lra). lra.
  - specialize (IH ltac:(lia)). pose proof (D_odd (S m) ltac:(lia)) as DO. pose proof (D_even m ltac:(lia)) as DE. pose proof (tterm_step n v m ltac:(lia) ltac:(lia)) as TS. rewrite <- R2 in TS.
    replace (n + 2 * S m - 1)%nat with (n + 2 * m + 1)%nat in * by lia. replace (n + 2 * S m)%nat with (S (S (n + 2 * m))) by lia.
    set (j := (n + 2 * m)%nat) in *. replace (j + 1)%nat with (S j) in * by lia.
    change (Csum U (S (S j))) with (Cplus (Cplus (Csum U j) (U j)) (U (S j))). change (Csum T (S (S j))) with (Cplus (Cplus (Csum T j) (T j)) (T (S j))).
    replace (Cminus (Cplus (Cplus (Csum U j) (U j)) (U (S j))) (Cplus (Cplus (Csum T j) (T j)) (T (S j)))) with (Cplus (Cplus (Cminus (Csum U j) (Csum T j)) (Cminus (U j) (T j))) (Cminus (U (S j)) (T (S j)))) by ring.
    eapply Rle_trans; [apply Cmod_triangle|]. pose proof (Cmod_triangle (Cminus (Csum U j) (Csum T j)) (Cminus (U j) (T j))) as TR. rewrite DE in TR.
    set (a := Cmod (T (S j))) in *. set (b := Cmod (T (j - 1)%nat)) in *. set (T1 := Cmod (T (n + 1)%nat)) in *.
    assert (E : a * (1 + r2 / (1 - r2)) <= b * (r2 / (1 - r2))).
    { replace (1 + r2 / (1 - r2)) with (/ (1 - r2)) by (field; lra). unfold Rdiv. rewrite <- Rmult_assoc. apply Rmult_le_compat_r; [left; apply Rinv_0_lt_compat; lra|]. lra. }
    lra.
Qed.
Lemma dev_total m : (1 <= m <= 130)%nat -> Cmod (Cminus (Csum U (n + 2 * m)) (Csum T (n + 2 * m))) <= 2 / 10 ^ 15.
Proof.
  intros H. pose proof (dev_up _ m eq_refl H) as DU. pose proof rw_le as RL. set (r2 := rw v * rw v) in *. pose proof T_first as TF.
  assert (P : 0 <= Cmod (T (n + 2 * m - 1)%nat) * (r2 / (1 - r2))) by (apply Rmult_le_pos; [apply Cmod_ge_0|apply Rdiv_le_0_compat; lra]).
  assert (EX : exp x <= 24.6) by (apply Rle_trans with (exp 3.2); [apply exp_mono; exact X|interval]).
  assert (Q : Cmod (T (n + 1)%nat) / (1 - r2) <= 2.05 * 1.36).
  { unfold Rdiv. apply Rmult_le_compat; [apply Cmod_ge_0|left; apply Rinv_0_lt_compat; lra|lra|]. apply Rle_trans with (/ 0.74); [apply Rinv_le_contravar; lra|lra]. }
  lra.
Qed.
End Dev.

(** ** the three regions *)
Lemma log_exact e (z : C) : z <> RtoC 0 -> snd z <> 0 \/ 0 < fst z -> Li_clog (NumR e) (ofC e z) = ofC e (Clog z).
Proof. intros Z0 H. destruct (near_log_ex e z Z0) as (v & V & (w & W & _ & _ & E)). rewrite V, (E H), (Clog_unique z w W). reflexivity. Qed.
Lemma ln_region (z : C) : snd z <> 0 -> 3 / 4 <= Cmod z <= 7 / 5 -> Cmod (Clog z) <= 3.2.
Proof.
  intros H [A B]. assert (Z0 : z <> RtoC 0) by (intros ->; apply H; reflexivity). destruct (Clog_spec z Z0) as [_ R]. rewrite Cmod_alt.
  assert (L : fst (Clog z) = ln (Cmod z)) by reflexivity. assert (P : 0 < Cmod z) by lra.
  assert (L1 : -0.36 <= fst (Clog z) <= 0.36).
  { rewrite L. split.
    - apply Rle_trans with (ln (3 / 4)); [interval|]. destruct (Req_dec (3 / 4) (Cmod z)) as [<-|]; [lra|left; apply ln_increasing; lra].
    - apply Rle_trans with (ln (7 / 5)); [|interval]. destruct (Req_dec (Cmod z) (7 / 5)) as [->|]; [lra|left; apply ln_increasing; lra]. }
  assert (PP : PI <= 3.1416) by interval. set (a := fst (Clog z)) in *. set (b := snd (Clog z)) in *.
  assert (a * a <= 0.1296) by nra. assert (b * b <= 3.1416 * 3.1416) by nra.
  rewrite <- (sqrt_square 3.2) by lra. apply sqrt_le_1_alt. lra.
Qed.
Lemma snd_inv_ne (z : C) : snd z <> 0 -> snd (Cinv z) <> 0.
Proof. intros H. destruct z as [a b]. cbn [snd Cinv] in *. assert (0 < a * (a * 1) + b * (b * 1)) by nra. intros E. apply H. unfold Cinv in E. cbn [fst snd pow] in E. apply (Rmult_eq_reg_r (/ (a * (a * 1) + b * (b * 1)))); [lra|apply Rinv_neq_0_compat; lra]. Qed.
Section Reg.
Variable e : R.
Variable q : option R -> option R -> bool.
Variable t : R.
Hypothesis Hq : stop_test q t.
Hypothesis Ht : 0 <= t <= / 100.
Notation N := (NumQ e q).
Variable n : nat.
Hypothesis Hn : (7 <= n)%nat.
Hypothesis Hb : (Z.of_nat n <= 3037000497)%Z.
Theorem unity_acc (z : C) fuel w : snd z <> 0 -> 3 / 4 <= Cmod z <= 7 / 5 -> Li_unity_pos N fuel (Z.of_nat n) (ofC e z) = Val w ->
  (exists s, w = ofC e s /\ Cmod (Cminus s (CLi n z)) <= 2 / 10 ^ 15 + 0.4 * t * Cmod s) \/ w = (None, None).
Proof.
  intros H Hz E. assert (Z0 : z <> RtoC 0) by (intros ->; apply H; reflexivity). pose proof Hq as [Q0 _].
  destruct (zeta_code e) as (zc & ZV & ZA). destruct (harm_code e (n - 1) ltac:(lia) ltac:(unfold INT64_MAX; lia)) as (h & HH & HA).
  set (v := Clog z). pose proof (Clog_im_neq z H) as VI. fold v in VI. assert (V0 : Copp v <> RtoC 0) by (intros K; apply VI; apply (f_equal snd) in K; unfold Copp, RtoC in K; cbn [snd] in K; lra).
  destruct (unity_pos_stop e q Q0 zc h n v (Clog (Copp v)) ltac:(lia)) with (fuel := fuel) (z := z) (w := w) as [(m & Hm & -> & CE) | (A & B)]; try assumption.
  - intros k K. apply ZV. unfold INT64_MAX. lia.
  - apply ZA.
  - replace (Z.of_nat n - 1)%Z with (Z.of_nat (n - 1)) by lia. exact HH.
  - apply log_exact; [exact Z0|left; exact H].
  - apply log_exact; [exact V0|left; unfold Copp; cbn [snd]; lra].
  - left. eexists. split; [reflexivity|]. apply (ceqb_tol e q t) in CE; [|exact Hq|lra].
    pose proof (ln_region z H Hz) as X. fold v in X. pose proof (rw_le v X) as RL.
    pose proof (dev_total zc h n v Hn ZA HA X m ltac:(lia)) as DT. destruct (Clog_spec z Z0) as [EX R]. fold v in EX, R.
    pose proof (unity_tail n v m ltac:(lia) ltac:(lia) VI ltac:(apply Rabs_le; lra) ltac:(assert (3.14 < PI) by interval; lra)) as UT. rewrite EX in UT.
    pose proof (D_odd zc h n v Hn ZA m ltac:(lia)) as DO.
    set (U := uterm zc h n v (Clog (Copp v))) in *. set (S := Csum U (n + 2 * m)) in *. set (S' := Csum U (n + 2 * m - 2)) in *. set (Tm := Cmod (tterm n v (n + 2 * m - 1))) in *.
    assert (SS : Cminus S S' = U (n + 2 * m - 1)%nat).
    { assert (ES : S = Csum U (Datatypes.S (Datatypes.S (n + 2 * m - 2)))) by (unfold S; f_equal; lia). rewrite ES. cbn [Csum]. fold S'. pose proof (U_even zc h n v Hn ZA (m - 1) ltac:(lia)) as UE. fold U in UE. replace (n + 2 * (m - 1))%nat with (n + 2 * m - 2)%nat in UE by lia. rewrite UE.
      replace (Datatypes.S (n + 2 * m - 2)) with (n + 2 * m - 1)%nat by lia. ring. }
    rewrite SS in CE.
    assert (T1 : Tm <= 1.001 * Cmod (U (n + 2 * m - 1)%nat)).
    { pose proof (Cmod_triangle (Cminus (tterm n v (n + 2 * m - 1)) (U (n + 2 * m - 1)%nat)) (U (n + 2 * m - 1)%nat)) as TR.
      replace (Cplus (Cminus (tterm n v (n + 2 * m - 1)) (U (n + 2 * m - 1)%nat)) (U (n + 2 * m - 1)%nat)) with (tterm n v (n + 2 * m - 1)) in TR by ring. fold Tm in TR.
      rewrite <- Cmod_opp in DO. replace (Copp (Cminus (U (n + 2 * m - 1)%nat) (tterm n v (n + 2 * m - 1)))) with (Cminus (tterm n v (n + 2 * m - 1)) (U (n + 2 * m - 1)%nat)) in DO by ring.
      pose proof (Cmod_ge_0 (tterm n v (n + 2 * m - 1))) as TP. fold Tm in TP. lra. }
    assert (T2 : Cmod S' <= 1.011 * Cmod S).
    { pose proof (Cmod_triangle S (Copp (U (n + 2 * m - 1)%nat))) as TR. rewrite Cmod_opp, <- SS in TR. replace (Cplus S (Copp (Cminus S S'))) with S' in TR by ring. rewrite SS in TR.
      pose proof (Cmod_ge_0 S'). assert (t * Cmod S' <= / 100 * Cmod S') by (apply Rmult_le_compat_r; lra). lra. }
    set (r2 := rw v * rw v) in *. assert (R3 : 0 <= r2 / (1 - r2) <= 0.352) by (split; [apply Rdiv_le_0_compat; lra|apply Rle_div_l; lra]).
    pose proof (Cmod_triangle (Cminus S (Csum (tterm n v) (n + 2 * m))) (Cminus (Csum (tterm n v) (n + 2 * m)) (CLi n z))) as TR.
    replace (Cplus (Cminus S (Csum (tterm n v) (n + 2 * m))) (Cminus (Csum (tterm n v) (n + 2 * m)) (CLi n z))) with (Cminus S (CLi n z)) in TR by ring.
    rewrite <- Cmod_opp in UT. replace (Copp (Cminus (CLi n z) (Csum (tterm n v) (n + 2 * m)))) with (Cminus (Csum (tterm n v) (n + 2 * m)) (CLi n z)) in UT by ring.
    assert (TP : 0 <= Tm) by apply Cmod_ge_0. assert (Q1 : Tm * (r2 / (1 - r2)) <= Tm * 0.352) by (apply Rmult_le_compat_l; lra).
    assert (Q2 : t * Cmod S' <= t * (1.011 * Cmod S)) by (apply Rmult_le_compat_l; lra).
    assert (Q3 : 0 <= t * Cmod S) by (apply Rmult_le_pos; [lra|apply Cmod_ge_0]).
    lra.
  - right. destruct w as [a b]. cbn [fst snd] in A, B. subst. reflexivity.
Qed.
(** *** the inversion remainder *)
Definition no_zero_sum (c f : nat -> R) (L : C) : Prop :=
  forall i, (i < n / 2)%nat -> f (n mod 2 + 2 * i)%nat <> 0 -> Csum (fun i => Cmult (RtoC (c (n - (n mod 2 + 2 * i)) * f (n mod 2 + 2 * i)))%nat (Cpow L (n mod 2 + 2 * i))) (S i) <> RtoC 0.
Lemma ceqb_zero (a : C) : ceqb N (ofC e a) (czero N) = ceqb (NumR e) (ofC e a) (czero (NumR e)).
Proof. destruct Hq as [Q0 _]. unfold ceqb, czero. cbn [fst snd ofC]. change (lit N 0 0) with (lit (NumR e) 0 0). rewrite lit_int. change (eqb N) with q. rewrite !Q0. reflexivity. Qed.
Lemma rest_loop_same c f L2 : code_tables e c f -> forall cnt k s p, (Z.of_nat cnt <= k)%Z -> (2 * k <= Z.of_nat n)%Z ->
  Li_rest_loop N cnt k (Z.of_nat n) (ofC e L2) (ofC e s) (ofC e p) = Li_rest_loop (NumR e) cnt k (Z.of_nat n) (ofC e L2) (ofC e s) (ofC e p).
Proof.
  intros [F C]. destruct Hq as [Q0 _]. induction cnt as [|cnt IH]; intros k s p H1 H2; [reflexivity|]. cbn [Li_rest_loop].
  change (inv_fac N) with (inv_fac (NumR e)). change (neg_eta N) with (neg_eta (NumR e)).
  replace (Z.of_nat n - 2 * k)%Z with (Z.of_nat (n - Z.to_nat (2 * k))) by lia. rewrite F. cbn [bind].
  change (lit N 0 0) with (lit (NumR e) 0 0). rewrite lit_int. change (eqb N) with q. rewrite Q0. cbn [eqb NumR ocmp].
  destruct (Reqb _ 0); [reflexivity|]. replace (2 * k)%Z with (Z.of_nat (Z.to_nat (2 * k))) by lia. rewrite C by lia. cbn [bind]. cbv zeta.
  change (mul N) with (mul (NumR e)). change (cadd N) with (cadd (NumR e)). change (cmul_rc N) with (cmul_rc (NumR e)). change (cmul N) with (cmul (NumR e)).
  cbn [mul NumR lift2]. rewrite ofC_mul_rc, ofC_mul, ofC_add. rewrite ceqb_zero. destruct (ceqb _ _ _); [reflexivity|]. apply IH; lia.
Qed.
Lemma even_n : is_even (Z.of_nat n) = Nat.even n. Proof. rewrite even_Zeven, Zeven_nat, Nat2Z.id by lia. reflexivity. Qed.
Lemma rest_same c f (z : C) : code_tables e c f -> snd z <> 0 -> Li_rest N (Z.of_nat n) (ofC e z) = Li_rest (NumR e) (Z.of_nat n) (ofC e z).
Proof.
  intros T H. assert (Z1 : Copp z <> RtoC 0) by (intros E; apply (f_equal snd) in E; cbn in E; lra). destruct Hq as [Q0 _]. unfold Li_rest. cbv zeta.
  change (copp N (ofC e z)) with (copp (NumR e) (ofC e z)). rewrite ofC_opp, (clogQ e q Q0). rewrite (log_exact e (Copp z) Z1) by (left; cbn; lra).
  change (cmul N (ofC e (Clog (Copp z)))) with (cmul (NumR e) (ofC e (Clog (Copp z)))). rewrite ofC_mul. set (L := Clog (Copp z)).
  set (k := if is_even (Z.of_nat n) then Z.quot (Z.of_nat n) 2 else Z.quot (Z.of_nat n - 1) 2).
  assert (K : (0 <= k /\ 2 * k <= Z.of_nat n)%Z) by (unfold k; destruct (is_even (Z.of_nat n)); rewrite Z.quot_div_nonneg by lia; [pose proof (Z.mul_div_le (Z.of_nat n) 2)|pose proof (Z.mul_div_le (Z.of_nat n - 1) 2)]; Z.to_euclidean_division_equations; lia).
  assert (CZ : czero N = ofC e (RtoC 0)) by (unfold czero, ofC; change (lit N 0 0) with (lit (NumR e) 0 0); rewrite lit_int; reflexivity).
  assert (CZ' : czero (NumR e) = ofC e (RtoC 0)) by (unfold czero, ofC; rewrite lit_int; reflexivity). rewrite CZ, CZ'.
  set (p := if is_even (Z.of_nat n) then RtoC 1 else L).
  assert (P1 : (if is_even (Z.of_nat n) then (lit N 1 0, lit N 0 0) else ofC e L) = ofC e p) by (unfold p; change (lit N) with (lit (NumR e)); rewrite !lit_int; destruct (is_even (Z.of_nat n)); reflexivity).
  assert (P2 : (if is_even (Z.of_nat n) then (lit (NumR e) 1 0, lit (NumR e) 0 0) else ofC e L) = ofC e p) by (unfold p; rewrite !lit_int; destruct (is_even (Z.of_nat n)); reflexivity).
  rewrite P2. match goal with |- bind (Li_rest_loop N ?a ?b ?c0 ?d ?s ?p0) _ = _ => replace (Li_rest_loop N a b c0 d s p0) with (Li_rest_loop (NumR e) a b c0 d s (ofC e p)) end; [reflexivity|].
  rewrite P1. symmetry. apply (rest_loop_same c f); [exact T|lia|lia].
Qed.
(** x^a/a! + ... + x^b/b! *)
Lemma rest_err_sharp c f L : (forall j, (1 <= j)%nat -> Rabs (c j - neg_eta_true j) <= 6 / 10 ^ 17) ->
  (forall m, (m <= 177)%nat -> Rabs (f m - inv_fact m) <= 6 / 10 ^ 17 * inv_fact m) -> (forall m, (178 <= m)%nat -> f m = 0) ->
  Cmod (Cminus (restC c f n L) (restC neg_eta_true inv_fact n L)) <= sum_f_R0 (fun m => (if (m <=? 177)%nat then 3 / 10 ^ 16 else 2.1) * (Cmod L ^ m / INR (fact m))) n.
Proof.
  intros C F F0. unfold restC. rewrite Csum_minus. eapply Rle_trans; [apply Csum_mod|]. apply sum_Rle. intros m Hm.
  replace (Cminus (Cmult (RtoC (gam c (n - m) * f m)) (Cpow L m)) (Cmult (RtoC (gam neg_eta_true (n - m) * inv_fact m)) (Cpow L m)))
    with (Cmult (RtoC (gam c (n - m) * f m - gam neg_eta_true (n - m) * inv_fact m)) (Cpow L m)) by (rewrite RtoC_minus; ring).
  rewrite Cmod_mult, Cmod_R, Cpow_mod. pose proof (coef_err c f C F F0 n m) as E. unfold Rdiv at 2. change (/ INR (fact m)) with (inv_fact m).
  replace ((if (m <=? 177)%nat then 3 / 10 ^ 16 else 2.1) * (Cmod L ^ m * inv_fact m)) with ((if (m <=? 177)%nat then 3 / 10 ^ 16 else 2.1) * inv_fact m * Cmod L ^ m) by ring.
  apply Rmult_le_compat_r; [apply pow_le, Cmod_ge_0|exact E].
Qed.
End Reg.

(** ** the loop of the expansion about 1 stops, if the test accepts numbers within a relative distance t0 *)
Section Tot.
Variable e : R.
Variable q : option R -> option R -> bool.
Hypothesis Hq : zero_exact q.
Notation N := (NumQ e q).
Variables (zc : Z -> R) (h : R) (n : nat) (v u : C).
Hypothesis Hn : (2 <= n)%nat.
Hypothesis Hz : zvals e zc (Z.of_nat n).
Hypothesis Hze : forall m, (m < 0)%Z -> Z.even m = true -> zc m = 0.
Hypothesis Hh : harmonic (NumR e) (Z.of_nat n - 1) = Val (Some h).
Hypothesis Hnb : (Z.of_nat n <= 3037000000)%Z.
Notation U := (uterm zc h n v u).
Hypothesis Hacc : ceqb N (ofC e (Csum U (n + 260))) (ofC e (Csum U (n + 258))) = true.
Lemma loop2_total fuel : forall i, (2 <= i <= 130)%nat -> (131 - i <= fuel)%nat -> let j := (n + 2 * i - 1)%nat in
  exists w, Li_unity_pos_loop2 N fuel (Z.of_nat j) (Z.of_nat n) (ofC e (Cmult v v)) (ofC e (Csum U (j - 1))) (ofC e (pw v (j - 2))) = Val (ofC e w).
Proof.
  induction fuel as [|f IH]; intros i Hi Hf j; [lia|]. cbn [Li_unity_pos_loop2].
  assert (Hp : Z.even (Z.of_nat n - Z.of_nat j) = false) by (unfold j; replace (Z.of_nat n - Z.of_nat (n + 2 * i - 1))%Z with (1 + 2 * (- Z.of_nat i))%Z by lia; rewrite Z.even_add_mul_2; reflexivity).
  destruct (Z.ltb_spec (Z.of_nat j) (INT64_MAX - 2)) as [J|J]; [|exfalso; unfold INT64_MAX in J; lia].
  rewrite (i64_ok ((Z.of_nat j - 1) * Z.of_nat j)).
  2:{ assert (J1 : (0 <= Z.of_nat j <= 3037000260)%Z) by lia. clear -J1. unfold is_int64, INT64_MIN, INT64_MAX. nia. }
  cbn [bind]. cbv zeta. rewrite i64_ok by (unfold INT64_MIN, INT64_MAX; lia). cbn [bind]. change (zeta N) with (zeta (NumR e)). rewrite Hz by lia. cbn [bind].
  assert (P2 : cmul N (ofC e (pw v (j - 2))) (cdiv_cr N (ofC e (Cmult v v)) (ofZ N ((Z.of_nat j - 1) * Z.of_nat j))) = ofC e (pw v j)).
  { change (cdiv_cr N (ofC e (Cmult v v)) (ofZ N ((Z.of_nat j - 1) * Z.of_nat j))) with (cdiv_cr (NumR e) (ofC e (Cmult v v)) (Some (IZR ((Z.of_nat j - 1) * Z.of_nat j)))).
    rewrite ofC_div_cr by (apply not_0_IZR; nia). change (cmul N) with (cmul (NumR e)). rewrite ofC_mul. apply (f_equal (ofC e)).
    assert (E : forall k, Cmult (pw v k) (Cdiv (Cmult v v) (RtoC (INR (S k) * INR (S (S k))))) = pw v (S (S k))).
    { intros k. rewrite <- !(pw_S n v Hn). rewrite RtoC_mult. field. split; intros Q; apply (f_equal fst) in Q; cbn [fst RtoC] in Q; (apply not_0_INR in Q; [exact Q|lia]). }
    specialize (E (j - 2)%nat). replace (S (S (j - 2))) with j in E by lia. rewrite <- E. f_equal. f_equal. f_equal. rewrite mult_IZR, !INR_IZR_INZ. f_equal; f_equal; lia. }
  rewrite P2. change (cadd N ?a (cmul_rc N ?r ?b)) with (cadd (NumR e) a (cmul_rc (NumR e) r b)). rewrite ofC_mul_rc, ofC_add.
  assert (SM : Cplus (Csum U (j - 1)) (Cmult (RtoC (zc (Z.of_nat n - Z.of_nat j)%Z)) (pw v j)) = Csum U (S j)).
  { replace (Csum U (S j)) with (Cplus (Csum U j) (U j)) by reflexivity. replace (Csum U j) with (Csum U (j - 1)).
    - f_equal. unfold uterm. destruct (Nat.eqb_spec j (n - 1)); [lia|]. reflexivity.
    - replace (Csum U j) with (Csum U (S (j - 1))) by (f_equal; lia). cbn [Csum]. rewrite (zc_even zc h n v u Hn Hze (j - 1)) by (try lia; replace (Z.of_nat n - Z.of_nat (j - 1))%Z with (Z.succ (Z.of_nat n - Z.of_nat j))%Z by lia; rewrite Z.even_succ, <- Z.negb_even, Hp; reflexivity). ring. }
  rewrite SM. destruct (Nat.eq_dec i 130) as [E|E].
  - replace (S j) with (n + 260)%nat by lia. replace (j - 1)%nat with (n + 258)%nat by lia. rewrite Hacc. eexists. reflexivity.
  - match goal with |- exists w, (if ?b then _ else _) = _ => destruct b end; [eexists; reflexivity|].
    rewrite i64_ok by (unfold INT64_MIN, INT64_MAX; lia). cbn [bind]. destruct (IH (S i) ltac:(lia) ltac:(lia)) as (w & W). exists w.
    replace (Z.of_nat j + 2)%Z with (Z.of_nat (n + 2 * S i - 1)) by lia. rewrite <- W. replace (n + 2 * S i - 1 - 1)%nat with (S j) by lia. replace (n + 2 * S i - 1 - 2)%nat with j by lia. reflexivity.
Qed.
Lemma unity_pos_total fuel z : (129 <= fuel)%nat -> Li_clog (NumR e) (ofC e z) = ofC e v -> Li_clog (NumR e) (ofC e (Copp v)) = ofC e u ->
  exists w, Li_unity_pos N fuel (Z.of_nat n) (ofC e z) = Val (ofC e w).
Proof.
  intros Hf V U0. unfold Li_unity_pos. cbv zeta. rewrite (clogQ e q Hq), V. change (zeta N) with (zeta (NumR e)). rewrite Hz by lia. cbn [bind].
  rewrite i64_ok by (unfold INT64_MIN, INT64_MAX; lia). cbn [bind].
  assert (S0 : (Some (zc (Z.of_nat n)), lit (NumR e) 0 0) = ofC e (Csum U 1)).
  { rewrite lit_int. cbn [Csum]. unfold uterm. destruct (Nat.eqb_spec 0 (n - 1)); [lia|].
    replace (Z.of_nat n - Z.of_nat 0)%Z with (Z.of_nat n) by lia. cbn [Cpow fact INR]. unfold ofC. apply (f_equal2 pair); f_equal; unfold Cdiv, Cinv, Cmult, Cplus, RtoC; cbn [fst snd]; field. }
  assert (P0 : (lit (NumR e) 1 0, lit (NumR e) 0 0) = ofC e (pw v 0)).
  { rewrite !lit_int. unfold pw. cbn [Cpow fact INR]. unfold ofC. apply (f_equal2 pair); f_equal; unfold Cdiv, Cinv, Cmult, Cplus, RtoC; cbn [fst snd]; field. }
  change (@pair (car N) (car N) (lit N 1 0) (lit N 0 0)) with (@pair (car (NumR e)) (car (NumR e)) (lit (NumR e) 1 0) (lit (NumR e) 0 0)). rewrite P0.
  match goal with |- context [Li_unity_pos_loop1 N ?a ?b ?c ?d ?s ?p] => replace s with (ofC e (Csum U 1) : cpx N) by (symmetry; exact S0) end.
  replace (Z.to_nat (Z.of_nat n - 1 - 1)) with (n - 2)%nat by lia.
  match goal with |- context [Li_unity_pos_loop1 N ?a ?b ?c ?d ?s ?p] => replace (Li_unity_pos_loop1 N a b c d s p) with (Val (ofC e (Csum U (n - 1)), ofC e (pw v (n - 2))) : out (cpx N * cpx N)) by (symmetry; exact (loop1_ok e q zc h n v u Hn Hz Hze (n - 2) 0 ltac:(lia))) end. cbn [bind].
  rewrite (step1 e q n v Hn (n - 2)) by lia. replace (S (n - 2)) with (n - 1)%nat by lia.
  change (harmonic N) with (harmonic (NumR e)). rewrite Hh. cbn [bind].
  change (copp N (ofC e v)) with (copp (NumR e) (ofC e v)). rewrite ofC_opp, (clogQ e q Hq), U0.
  change (cadd N ?a (cmul N (csub_rc N ?r ?b) ?c)) with (cadd (NumR e) a (cmul (NumR e) (csub_rc (NumR e) r b) c)).
  rewrite ofC_sub_rc, ofC_mul, ofC_add.
  assert (S1 : Cplus (Csum U (n - 1)) (Cmult (Cminus (RtoC h) u) (pw v (n - 1))) = Csum U n).
  { replace (Csum U n) with (Csum U (S (n - 1))) by (f_equal; lia). change (Csum U (S (n - 1))) with (Cplus (Csum U (n - 1)) (U (n - 1)%nat)). rewrite (uterm_at zc h n v u). reflexivity. }
  rewrite S1. rewrite (step1 e q n v Hn (n - 1)) by lia. replace (S (n - 1)) with n by lia.
  rewrite Hz by lia. cbn [bind]. rewrite (addmul e q).
  assert (S2 : Cplus (Csum U n) (Cmult (RtoC (zc 0%Z)) (pw v n)) = Csum U (S n)).
  { change (Csum U (S n)) with (Cplus (Csum U n) (U n)). rewrite (uterm_ne zc h n v u n) by lia. rewrite Z.sub_diag. reflexivity. }
  rewrite S2. rewrite i64_ok by (unfold INT64_MIN, INT64_MAX; lia). cbn [bind].
  rewrite (step1 e q n v Hn n) by lia. rewrite Hz by lia. cbn [bind]. rewrite (addmul e q).
  assert (S3 : Cplus (Csum U (S n)) (Cmult (RtoC (zc (-1)%Z)) (pw v (S n))) = Csum U (S (S n))).
  { change (Csum U (S (S n))) with (Cplus (Csum U (S n)) (U (S n))). rewrite (uterm_ne zc h n v u (S n)) by lia.
    replace (Z.of_nat n - Z.of_nat (S n))%Z with (-1)%Z by lia. reflexivity. }
  rewrite S3. rewrite i64_ok by (unfold INT64_MIN, INT64_MAX; lia). cbn [bind].
  change (cmul N (ofC e v) (ofC e v)) with (cmul (NumR e) (ofC e v) (ofC e v)). rewrite ofC_mul.
  destruct (loop2_total fuel 2 ltac:(lia) ltac:(lia)) as (w & W). exists w. replace (n + 2 * 2 - 1)%nat with (n + 3)%nat in W by lia.
  replace (Z.of_nat n + 3)%Z with (Z.of_nat (n + 3)) by lia. rewrite <- W. replace (n + 3 - 1)%nat with (S (S n)) by lia. replace (n + 3 - 2)%nat with (S n) by lia. reflexivity.
Qed.
End Tot.
Definition accepts (q : option R -> option R -> bool) (t0 : R) : Prop := forall x y, y <> 0 -> Rabs (x - y) <= t0 * Rabs y -> q (Some x) (Some y) = true.
Lemma tail130 x : 0 <= x <= 0.26 -> x ^ 128 <= / 10 ^ 74.
Proof. intros H. apply Rle_trans with (0.26 ^ 128); [apply pow_incr; exact H|]. interval with (i_prec 60). Qed.
Lemma tterm_geo n v i : (7 <= n)%nat -> Cmod v <= 3.2 -> (1 <= i)%nat -> Cmod (tterm n v (n + 2 * i - 1)) <= 2.05 * (rw v * rw v) ^ (i - 1).
Proof.
  intros Hn X. pose proof (rw_le v X) as RL. intros Hi. induction i as [|i IH]; [lia|]. destruct (Nat.eq_dec i 0) as [->|I].
  - cbn [Nat.sub pow]. replace (n + 2 * 1 - 1)%nat with (n + 1)%nat by lia. eapply Rle_trans; [apply T_first; exact Hn|]. assert (exp (Cmod v) <= 24.6) by (apply Rle_trans with (exp 3.2); [apply exp_mono; exact X|interval]). lra.
  - specialize (IH ltac:(lia)). pose proof (tterm_step n v i ltac:(lia) ltac:(lia)) as TS. replace (n + 2 * S i - 1)%nat with (n + 2 * i + 1)%nat by lia. replace (S i - 1)%nat with (S (i - 1)) by lia. cbn [pow].
    eapply Rle_trans; [exact TS|]. set (r2 := rw v * rw v) in *. pose proof (Rmult_le_compat_l r2 _ _ ltac:(lra) IH). lra.
Qed.
Theorem unity_returns e q t0 (n : nat) (z : C) fuel : zero_exact q -> accepts q t0 -> / 10 ^ 50 <= t0 -> (7 <= n)%nat -> (Z.of_nat n <= 3037000000)%Z ->
  snd z <> 0 -> 3 / 4 <= Cmod z <= 7 / 5 -> / 10 ^ 14 <= Rabs (fst (CLi n z)) -> / 10 ^ 14 <= Rabs (snd (CLi n z)) -> (129 <= fuel)%nat ->
  exists w, Li_unity_pos (NumQ e q) fuel (Z.of_nat n) (ofC e z) = Val (ofC e w).
Proof.
  intros Q0 Q1 T0 Hn Hb H Hz CR CI Hf. assert (Z0 : z <> RtoC 0) by (intros ->; apply H; reflexivity).
  destruct (zeta_code e) as (zc & ZV & ZA). destruct (harm_code e (n - 1) ltac:(lia) ltac:(unfold INT64_MAX; lia)) as (h & HH & HA).
  set (v := Clog z). pose proof (Clog_im_neq z H) as VI. fold v in VI. assert (V0 : Copp v <> RtoC 0) by (intros K; apply VI; apply (f_equal snd) in K; unfold Copp, RtoC in K; cbn [snd] in K; lra).
  pose proof (ln_region z H Hz) as X. fold v in X. pose proof (rw_le v X) as RL. destruct (Clog_spec z Z0) as [EX R]. fold v in EX, R.
  apply (unity_pos_total e q Q0 zc h n v (Clog (Copp v))); try lia; try assumption.
  - intros k K. apply ZV. unfold INT64_MAX. lia.
  - apply ZA.
  - replace (Z.of_nat n - 1)%Z with (Z.of_nat (n - 1)) by lia. exact HH.
  - set (U := uterm zc h n v (Clog (Copp v))).
    pose proof (dev_total zc h n v Hn ZA HA X 129 ltac:(lia)) as DT. fold U in DT. replace (n + 2 * 129)%nat with (n + 258)%nat in DT by lia.
    pose proof (unity_tail n v 129 ltac:(lia) ltac:(lia) VI ltac:(apply Rabs_le; lra) ltac:(assert (3.14 < PI) by interval; lra)) as UT. rewrite EX in UT. replace (n + 2 * 129)%nat with (n + 258)%nat in UT by lia.
    pose proof (D_odd zc h n v Hn ZA 130 ltac:(lia)) as DO. fold U in DO. pose proof (tterm_geo n v 129 Hn X ltac:(lia)) as G1. pose proof (tterm_geo n v 130 Hn X ltac:(lia)) as G2.
    replace (n + 2 * 129 - 1)%nat with (n + 258 - 1)%nat in G1 by lia. replace (129 - 1)%nat with 128%nat in G1 by lia. replace (130 - 1)%nat with (S 128) in G2 by lia. replace (n + 2 * 130 - 1)%nat with (S (n + 258)) in DO, G2 by lia.
    set (r2 := rw v * rw v) in *. pose proof (tail130 r2 RL) as TL. change (r2 ^ S 128) with (r2 * r2 ^ 128) in G2. assert (R3 : 0 <= r2 / (1 - r2) <= 0.352) by (split; [apply Rdiv_le_0_compat; lra|apply Rle_div_l; lra]).
    assert (P128 : 0 <= r2 ^ 128) by (apply pow_le; lra). set (p := r2 ^ 128) in *. clearbody p.
    assert (G2' : Cmod (tterm n v (S (n + 258))) <= 2.05 * / 10 ^ 74) by (assert (r2 * p <= 1 * / 10 ^ 74) by (apply Rmult_le_compat; lra); lra).
    assert (SS : Cminus (Csum U (n + 260)) (Csum U (n + 258)) = U (S (n + 258))).
    { replace (Csum U (n + 260)) with (Cplus (Cplus (Csum U (n + 258)) (U (n + 258)%nat)) (U (S (n + 258)))) by (replace (n + 260)%nat with (S (S (n + 258))) by lia; reflexivity).
      pose proof (U_even zc h n v Hn ZA 129 ltac:(lia)) as UE. fold U in UE. replace (n + 2 * 129)%nat with (n + 258)%nat in UE by lia. rewrite UE. ring. }
    assert (UB : Cmod (U (S (n + 258))) <= 3 * / 10 ^ 74).
    { pose proof (Cmod_triangle (Cminus (U (S (n + 258))) (tterm n v (S (n + 258)))) (tterm n v (S (n + 258)))) as TR.
      replace (Cplus (Cminus (U (S (n + 258))) (tterm n v (S (n + 258)))) (tterm n v (S (n + 258)))) with (U (S (n + 258))) in TR by ring. lra. }
    set (S2 := Csum U (n + 260)) in *. set (S1 := Csum U (n + 258)) in *. set (St := Csum (tterm n v) (n + 258)) in *. set (d := U (S (n + 258))) in *. set (tm := Cmod (tterm n v (n + 258 - 1))) in *.
    assert (TP : 0 <= tm) by apply Cmod_ge_0. assert (TM : tm * (r2 / (1 - r2)) <= 2.05 * / 10 ^ 74 * 0.352) by (apply Rmult_le_compat; lra).
    assert (CL : Cmod (Cminus S1 (CLi n z)) <= 3 / 10 ^ 15).
    { pose proof (Cmod_triangle (Cminus S1 St) (Cminus St (CLi n z))) as TR. replace (Cplus (Cminus S1 St) (Cminus St (CLi n z))) with (Cminus S1 (CLi n z)) in TR by ring.
      rewrite <- Cmod_opp in UT. replace (Copp (Cminus (CLi n z) St)) with (Cminus St (CLi n z)) in UT by ring. lra. }
    clearbody S1 S2 d. set (c := CLi n z) in *. clearbody c. clear - Q1 T0 CR CI SS UB CL.
    assert (F1 : Rabs (fst d) <= 3 * / 10 ^ 74) by (eapply Rle_trans; [apply Cmod_fst|exact UB]). assert (F2 : Rabs (snd d) <= 3 * / 10 ^ 74) by (eapply Rle_trans; [apply Cmod_snd|exact UB]).
    assert (C1 : Rabs (fst (Cminus S1 c)) <= 3 / 10 ^ 15) by (eapply Rle_trans; [apply Cmod_fst|exact CL]). assert (C2 : Rabs (snd (Cminus S1 c)) <= 3 / 10 ^ 15) by (eapply Rle_trans; [apply Cmod_snd|exact CL]).
    subst d. destruct S1 as [a b], S2 as [a2 b2], c as [c1 c2]. unfold Cminus, Cplus, Copp in *. cbn [fst snd] in *.
    assert (G : forall x y w, Rabs (x + - y) <= 3 * / 10 ^ 74 -> Rabs (y + - w) <= 3 / 10 ^ 15 -> / 10 ^ 14 <= Rabs w -> q (Some x) (Some y) = true).
    { intros x y w A B D. assert (Y : 1 / 10 ^ 15 <= Rabs y). { pose proof (Rabs_triang y (- (y + - w))) as TR. rewrite Rabs_Ropp in TR. replace (y + - (y + - w)) with w in TR by ring. lra. }
      apply Q1; [intros ->; rewrite Rabs_R0 in Y; lra|]. change (x - y) with (x + - y). eapply Rle_trans; [exact A|]. apply Rle_trans with (/ 10 ^ 50 * (1 / 10 ^ 15)); [lra|]. apply Rmult_le_compat; lra. }
    unfold ceqb. cbn [fst snd ofC]. apply andb_true_intro. split; [apply (G _ _ c1)|apply (G _ _ c2)]; assumption.
  - apply log_exact; [exact Z0|left; exact H].
  - apply log_exact; [exact V0|left; unfold Copp; cbn [snd]; lra].
Qed.
