(** * Properties, part F: zeta, eta, inverse factorials (C01, C02, C03, C06, C07), IEEE double *)
From Coq Require Import Reals Lra Lia Psatz ZArith List Bool.
From Coquelicot Require Import Coquelicot.
From Flocq Require Import Core IEEE754.BinarySingleNaN.
From Bignums Require Import BigZ.
From Verif Require Import Num Outcome Model_Tables Model_Zeta NumR Eval_R NumB NumB_facts Libm Ieee Proof_Int Polylog Fourier Zeta_num Bern Bern_num.
Import ListNotations.
Open Scope R_scope.

(** [rel64 q f v]: the finite double f has relative error at most q units of 2^-53 w.r.t. v *)
Definition rel64 (q : R) (f : f64) (v : R) : Prop := is_finite f = true /\ Rabs (B2R f - v) <= q * / 2 ^ 53 * Rabs v.

Lemma u53 : 0 < / 2 ^ 53 <= / 10 ^ 15. Proof. split; lra. Qed.
Lemma big64_max : big64 = IZR maxd.
Proof.
  unfold big64, maxd, F2R. cbn [Fnum Fexp]. change 971%Z with (Z.of_nat 971). rewrite bpow_nat. change (2 ^ Z.of_nat 971)%Z with (Zpower radix2 (Z.of_nat 971)). rewrite mult_IZR. f_equal.
  exact (pow_IZR 2 971).
Qed.
(** a literal whose decimal value has relative error 60e-18 *)
Lemma lit_rel64 L m e v : Rabs (litR m e) <= big64 -> bpow radix2 (-1022) <= Rabs (litR m e) -> Rabs (litR m e - v) <= 100 / 10 ^ 18 * Rabs v -> rel64 2 (lit (B64 L) m e) v.
Proof.
  intros H1 H2 H3. destruct (lit_okf L m e H1) as [F E]. split; [exact F|]. rewrite E. pose proof (rnd64_err_norm _ H2) as R1. rewrite u64_val in R1.
  assert (A : Rabs (litR m e) <= Rabs v + 100 / 10 ^ 18 * Rabs v) by (pose proof (Rabs_triang (litR m e - v) v) as T; replace (litR m e - v + v) with (litR m e) in T by ring; lra).
  replace (rnd64 (litR m e) - v) with ((rnd64 (litR m e) - litR m e) + (litR m e - v)) by ring. eapply Rle_trans; [apply Rabs_triang|].
  pose proof u53. pose proof (Rabs_pos v). set (w := Rabs v) in *. set (l := Rabs (litR m e)) in *.
  assert (/ 2 ^ 53 * l <= / 2 ^ 53 * (w + 100 / 10 ^ 18 * w)) by (apply Rmult_le_compat_l; lra). lra.
Qed.
Lemma nth_error_nth' {A} (l : list A) i d a : nth_error l i = Some a -> nth i l d = a.
Proof. intros H. erewrite nth_error_nth; eauto. Qed.

Lemma Zeven_nat n : (0 <= n)%Z -> Z.even n = Nat.even (Z.to_nat n).
Proof.
  intros H. apply eq_true_iff_eq. rewrite Z.even_spec, Nat.even_spec. split; intros [k E]; [exists (Z.to_nat k)|exists (Z.of_nat k)]; lia.
Qed.

(** ** C03 *)
Section C03.
Variable L : libm 53 1024.
Variable b : nat -> R.
(** b is the sequence of Bernoulli numbers: b_0 = 1, sum_{k<=m} binom(m+1,k) b_k = 0 for m >= 1 *)
Hypothesis B : is_bernoulli b.
Theorem C03_zeta_0 : exists f, zeta (B64 L) 0 = Val f /\ is_finite f = true /\ B2R f = - / 2.
Proof.
  exists (lit (B64 L) (-5) (-1)). split; [reflexivity|]. destruct (lit_okf L (-5) (-1)) as [F E].
  - rewrite litR_mhalf, Rabs_left by lra. pose proof big64_ge. lra.
  - split; [exact F|]. rewrite E, litR_mhalf. apply round_generic; [apply valid_rnd_N|]. replace (- / 2) with (- bpow radix2 (-1)) by (cbn; lra). apply generic_format_opp, generic_format_bpow. vm_compute. discriminate.
Qed.
Theorem C03_zeta_1 : zeta (B64 L) 1 = Val (B754_infinity false).
Proof. reflexivity. Qed.
Theorem C03_zeta_negative_even n : is_int64 n -> (n < 0)%Z -> Z.even n = true -> zeta (B64 L) n = Val (B754_zero false).
Proof. intros I H E. rewrite zeta_neg_even by (rewrite ?even_Zeven; assumption). reflexivity. Qed.
(** zeta(1-2m) = -B_{2m}/(2m), tabulated range *)
Theorem C03_zeta_negative_odd_tabulated (m : nat) : (1 <= m <= 130)%nat ->
  exists f, zeta (B64 L) (1 - 2 * Z.of_nat m) = Val f /\ rel64 2 f (- b (2 * m)%nat / INR (2 * m)).
Proof.
  intros H. destruct (zeta_neg_odd_table (B64 L) (Z.of_nat m) ltac:(lia)) as (d & A & E). eexists. split; [exact E|].
  apply nth_error_nth' with (d := (0, 0)%Z) in A. replace (Z.to_nat (Z.of_nat m - 1)) with (m - 1)%nat in A by lia.
  destruct (zeta_neg_ok b B (m - 1) ltac:(lia)) as (P & Q & R1). rewrite A in P, Q, R1. replace (m - 1 + 1)%nat with m in P by lia.
  apply lit_rel64; [rewrite big64_max; exact Q| |pose proof (Rabs_pos (zlim b m)); pose proof (Rabs_pos ((4 ^ m - 1) * zlim b m)); unfold zlim in *; lra]. eapply Rle_trans; [|exact R1]. eapply Rle_trans; [apply (bpow_le radix2 (-1022) (-10)); lia|]. right. cbn. lra.
Qed.
(** beyond the table: the infinity of the right sign, and the exact value overflows *)
Theorem C03_zeta_negative_odd_overflow (m : nat) : (131 <= m)%nat -> is_int64 (1 - 2 * Z.of_nat m) -> (1 - 2 * Z.of_nat m <> INT64_MIN + 1)%Z ->
  zeta (B64 L) (1 - 2 * Z.of_nat m) = Val (B754_infinity (Nat.odd m)) /\
  (if Nat.odd m then - b (2 * m)%nat / INR (2 * m) <= - bpow radix2 1024 else bpow radix2 1024 <= - b (2 * m)%nat / INR (2 * m)).
Proof.
  intros H I D. split.
  - rewrite zeta_neg_odd_inf by (assumption || lia). replace (Z.even (Z.of_nat m)) with (negb (Nat.odd m)); [destruct (Nat.odd m); reflexivity|].
    rewrite Zeven_nat by lia. rewrite Nat2Z.id. unfold Nat.odd. apply negb_involutive.
  - pose proof (zlim_big b B m H) as Z. unfold zlim in Z. change 1024%Z with (Z.of_nat 1024). rewrite bpow_nat, pow_IZR. change (2 ^ Z.of_nat 1024)%Z with (2 ^ 1024)%Z.
    rewrite m1_odd in Z. destruct (Nat.odd m); lra.
Qed.
End C03.

(** ** C07 *)
Section C07.
Variable L : libm 53 1024.
Variable b : nat -> R.
Hypothesis B : is_bernoulli b.
Theorem C07_neg_eta_0 : exists f, neg_eta (B64 L) 0 = Val f /\ is_finite f = true /\ B2R f = - / 2.
Proof. exact (C03_zeta_0 L). Qed.
Theorem C07_neg_eta_negative_even n : is_int64 n -> (n < 0)%Z -> Z.even n = true -> neg_eta (B64 L) n = Val (B754_zero false).
Proof. intros I H E. rewrite neg_eta_neg_even by (rewrite ?even_Zeven; assumption). reflexivity. Qed.
(** -eta(1-2m) = -(1 - 2^{2m}) zeta(1-2m), tabulated range *)
Theorem C07_neg_eta_negative_odd_tabulated (m : nat) : (1 <= m <= 109)%nat ->
  exists f, neg_eta (B64 L) (1 - 2 * Z.of_nat m) = Val f /\ rel64 2 f (- (1 - 2 ^ (2 * m)) * (- b (2 * m)%nat / INR (2 * m))).
Proof.
  intros H. destruct (neg_eta_neg_odd_table (B64 L) (Z.of_nat m) ltac:(lia)) as (d & A & E). eexists. split; [exact E|].
  apply nth_error_nth' with (d := (0, 0)%Z) in A. replace (Z.to_nat (Z.of_nat m - 1)) with (m - 1)%nat in A by lia.
  destruct (eta_neg_ok b B (m - 1) ltac:(lia)) as (P & Q & R1). rewrite A in P, Q, R1. replace (m - 1 + 1)%nat with m in P by lia.
  replace (- (1 - 2 ^ (2 * m)) * (- b (2 * m)%nat / INR (2 * m))) with ((4 ^ m - 1) * zlim b m) by (rewrite pow_mult; unfold zlim; replace (2 ^ 2) with 4 by ring; ring).
  apply lit_rel64; [rewrite big64_max; exact Q| |pose proof (Rabs_pos (zlim b m)); pose proof (Rabs_pos ((4 ^ m - 1) * zlim b m)); unfold zlim in *; lra]. eapply Rle_trans; [|exact R1]. eapply Rle_trans; [apply (bpow_le radix2 (-1022) (-10)); lia|]. right. cbn. lra.
Qed.
Theorem C07_neg_eta_negative_odd_overflow (m : nat) : (110 <= m)%nat -> is_int64 (1 - 2 * Z.of_nat m) -> (1 - 2 * Z.of_nat m <> INT64_MIN + 1)%Z ->
  neg_eta (B64 L) (1 - 2 * Z.of_nat m) = Val (B754_infinity (Nat.odd m)) /\
  let v := - (1 - 2 ^ (2 * m)) * (- b (2 * m)%nat / INR (2 * m)) in
  (if Nat.odd m then v <= - bpow radix2 1024 else bpow radix2 1024 <= v).
Proof.
  intros H I D. split.
  - rewrite neg_eta_neg_odd_inf by (assumption || lia). replace (Z.even (Z.of_nat m)) with (negb (Nat.odd m)); [destruct (Nat.odd m); reflexivity|].
    rewrite Zeven_nat by lia. rewrite Nat2Z.id. unfold Nat.odd. apply negb_involutive.
  - intros v. pose proof (elim_big b B m H) as Z. replace ((4 ^ m - 1) * zlim b m) with v in Z by (unfold v; rewrite pow_mult; unfold zlim; replace (2 ^ 2) with 4 by ring; ring).
    change 1024%Z with (Z.of_nat 1024). rewrite bpow_nat, pow_IZR. change (2 ^ Z.of_nat 1024)%Z with (2 ^ 1024)%Z.
    rewrite m1_odd in Z. destruct (Nat.odd m); lra.
Qed.
End C07.
Theorem C03_C07_bernoulli_exists : exists b, is_bernoulli b /\ b 2%nat = / 6.
Proof.
  exists bern. split; [exact bern_is_bernoulli|]. pose proof bern_is_bernoulli as [B0 B]. pose proof (B 1%nat ltac:(lia)) as B1. pose proof (B 2%nat ltac:(lia)) as B2.
  cbn [sum_f_R0] in B1, B2. rewrite B0 in *. unfold Binomial.C in *. cbn [fact Nat.sub Nat.mul Nat.add] in *. cbn [INR] in *. lra.
Qed.

(** ** C06 *)
Section C06.
Variable L : libm 53 1024.
Lemma aterm_eta n k : aterm true n k = (-1) ^ S k / INR (S k) ^ n.
Proof. unfold aterm. rewrite m1_odd. reflexivity. Qed.
Lemma eta_series_all n : (1 <= n)%nat -> is_series (fun k => (-1) ^ S k / INR (S k) ^ n) (ReLi n (-1)).
Proof.
  intros H. destruct (Nat.eq_dec n 1) as [-> |N].
  - pose proof (cosser_1 PI) as C. pose proof PI_RGT_0. specialize (C ltac:(lra)).
    replace (ReLi 1 (-1)) with (- ln (2 * sin (PI / 2))).
    + eapply is_series_ext; [|exact C]. intros k. unfold cterm. rewrite cos_INR_PI. reflexivity.
    + rewrite sin_PI2. cbn [ReLi]. do 2 f_equal. rewrite Rabs_pos_eq; lra.
  - eapply is_series_ext; [|apply eta_is_series; lia]. intros k. apply aterm_eta.
Qed.
Lemma abs_tri a c d lo hi : Rabs (a - c) <= d -> lo <= Rabs c <= hi -> lo - d <= Rabs a <= hi + d.
Proof. intros H1 H2. pose proof (Rabs_triang (a - c) c). pose proof (Rabs_triang (c - a) a). rewrite (Rabs_minus_sym c a) in *. replace (a - c + c) with a in * by ring. replace (c - a + a) with c in * by ring. lra. Qed.
Lemma small_1022 r : / 4 <= r -> bpow radix2 (-1022) <= r.
Proof. intros H. eapply Rle_trans; [apply (bpow_le radix2 (-1022) (-2)); lia|]. cbn. lra. Qed.
Lemma eta_range_check : forallb (fun n => (69 * 10 ^ 28 <=? - eta_n n) && (- eta_n n <=? 10 ^ 30))%Z (seq 1 54) = true.
Proof. vm_compute. reflexivity. Qed.
Lemma eta_range n : (1 <= n <= 54)%nat -> 68 / 100 <= Rabs (ReLi n (-1)) <= 2.
Proof.
  intros H. pose proof eta_range_check as C. rewrite forallb_forall in C. specialize (C n ltac:(apply in_seq; lia)). apply andb_prop in C. destruct C as [C1 C2].
  apply Z.leb_le, IZR_le in C1. apply Z.leb_le, IZR_le in C2. rewrite mult_IZR, opp_IZR in C1. rewrite opp_IZR in C2.
  replace (IZR (10 ^ 28)) with (10 ^ 28) in C1 by exact (pow_IZR 10 28). replace (IZR (10 ^ 30)) with (10 ^ 30) in C2 by exact (pow_IZR 10 30).
  pose proof (eta_n_ok n ltac:(lia)) as P. unfold SC in P. replace (IZR (10 ^ 30)) with (10 ^ 30) in P by exact (pow_IZR 10 30). apply Rabs_le_between in P. rewrite Rabs_left; lra.
Qed.
(** s: the limit of sum_{k>=1} (-1)^k/k^n *)
Theorem C06_neg_eta_positive (n : nat) (s : R) : (1 <= n)%nat -> is_series (fun k => (-1) ^ S k / INR (S k) ^ n) s ->
  exists f, neg_eta (B64 L) (Z.of_nat n) = Val f /\ rel64 2 f s.
Proof.
  intros H S. assert (E : s = ReLi n (-1)) by (rewrite <- (is_series_unique _ _ S); apply is_series_unique, eta_series_all, H).
  subst s. clear S. destruct (Nat.le_gt_cases n 54) as [G|G].
  - destruct (neg_eta_pos_table (B64 L) (Z.of_nat n) ltac:(lia)) as (d & A & E). eexists. split; [exact E|].
    apply nth_error_nth' with (d := (0, 0)%Z) in A. replace (Z.to_nat (Z.of_nat n - 1)) with (n - 1)%nat in A by lia.
    pose proof (eta_ok n ltac:(lia)) as P. rewrite A in P.
    pose proof (eta_range n ltac:(lia)) as V.
    pose proof (abs_tri _ _ _ _ _ P V). apply lit_rel64; [pose proof big64_ge; lra|apply small_1022; lra|lra].
  - rewrite neg_eta_pos_large by lia. eexists. split; [reflexivity|]. pose proof (eta_closed n ltac:(lia)) as P.
    assert (V : 68 / 100 <= Rabs (ReLi n (-1)) <= 2). { rewrite Rabs_minus_sym in P. assert (A0 : 1 <= Rabs (-1) <= 1) by (rewrite Rabs_left; lra). pose proof (abs_tri _ _ _ 1 1 P A0). lra. }
    assert (A1 : Rabs (litR (-1) 0) = 1) by (rewrite litR_int, Rabs_left; lra).
    apply lit_rel64; rewrite ?A1; [pose proof big64_ge; lra|apply small_1022; lra|rewrite litR_int; lra].
Qed.
End C06.

(** ** C02 *)
Section C02.
Variable L : libm 53 1024.
Hypothesis HL : libm_ok (Hp := Hp53) (He := He53) L.
Lemma zeta_range_check : forallb (fun n => (10 ^ 30 <=? zeta_n n) && (zeta_n n <=? 2 * 10 ^ 30))%Z (seq 2 32) = true.
Proof. vm_compute. reflexivity. Qed.
Lemma zeta_range n : (2 <= n)%nat -> 99 / 100 <= Rabs (ReLi n 1) <= 21 / 10.
Proof.
  intros H. destruct (Nat.le_gt_cases n 33) as [G|G].
  - pose proof zeta_range_check as C. rewrite forallb_forall in C. specialize (C n ltac:(apply in_seq; lia)). apply andb_prop in C. destruct C as [C1 C2].
    apply Z.leb_le, IZR_le in C1. apply Z.leb_le, IZR_le in C2. rewrite mult_IZR in C2.
    replace (IZR (10 ^ 30)) with (10 ^ 30) in C1, C2 by exact (pow_IZR 10 30).
    pose proof (zeta_n_ok n ltac:(lia)) as P. unfold SC in P. replace (IZR (10 ^ 30)) with (10 ^ 30) in P by exact (pow_IZR 10 30). apply Rabs_le_between in P. rewrite Rabs_pos_eq; lra.
  - pose proof (zeta_closed n ltac:(lia)) as P. assert (A : 0 < / 2 ^ n <= / 2 ^ 34) by (split; [apply Rinv_0_lt_compat, pow_lt; lra|apply Rinv_le_contravar; [apply pow_lt; lra|apply Rle_pow; [lra|lia]]]).
    assert (B1 : 1 <= / (1 - / 2 ^ n) <= 2). { split; apply (Rmult_le_reg_r (1 - / 2 ^ n)); try lra; rewrite Rinv_l by lra; lra. }
    apply Rabs_le_between in P. rewrite Rabs_pos_eq; lra.
Qed.
Lemma Rpower_half (y : R) : Rpower (/ 2) y = Rpower 2 (- y).
Proof. unfold Rpower. rewrite ln_Rinv by lra. f_equal. ring. Qed.
Theorem C02_zeta_positive (n : nat) (s : R) : (2 <= n)%nat -> (Z.of_nat n <= INT64_MAX)%Z -> is_series (fun k => / INR (S k) ^ n) s ->
  exists f, zeta (B64 L) (Z.of_nat n) = Val f /\ rel64 3 f s.
Proof.
  intros H I S. assert (E : s = ReLi n 1).
  { rewrite <- (is_series_unique _ _ S). apply is_series_unique. eapply is_series_ext; [|exact (zeta_is_series n H)]. intros k. unfold aterm. cbn [andb]. unfold Rdiv. apply Rmult_1_l. }
  subst s. clear S. pose proof (zeta_range n H) as V. destruct (Nat.le_gt_cases n 33) as [G|G].
  - destruct (zeta_pos_table (B64 L) (Z.of_nat n) ltac:(lia)) as (d & A & E). eexists. split; [exact E|].
    apply nth_error_nth' with (d := (0, 0)%Z) in A. replace (Z.to_nat (Z.of_nat n - 2)) with (n - 2)%nat in A by lia.
    pose proof (zpos_ok n ltac:(lia)) as P. rewrite A in P.
    pose proof (abs_tri _ _ _ _ _ P V). destruct (lit_rel64 L (fst d) (snd d) (ReLi n 1)) as [F1 F2]; [pose proof big64_ge; lra|apply small_1022; lra|lra|].
    split; [exact F1|]. pose proof u53. pose proof (Rabs_pos (ReLi n 1)). nra.
  - rewrite zeta_pos_large by (unfold is_int64, INT64_MIN, INT64_MAX in *; lia). eexists. split; [reflexivity|].
    assert (one : okf (lit (B64 L) 1 0) 1). { rewrite <- (litR_int 1). apply lit_okf. rewrite litR_int, Rabs_pos_eq by lra. pose proof big64_ge. lra. }
    assert (E1 : B2R (lit (B64 L) 1 0) = 1) by (apply (okf_exact _ _ one), (gf_int 1); lia). destruct one as [F1 _].
    assert (half : okf (lit (B64 L) 5 (-1)) (/ 2)). { rewrite <- litR_half. apply lit_okf. rewrite litR_half, Rabs_pos_eq by lra. pose proof big64_ge. lra. }
    assert (Eh : B2R (lit (B64 L) 5 (-1)) = / 2). { apply (okf_exact _ _ half). apply (generic_format_bpow radix2 _ (-1)). vm_compute. discriminate. } destruct half as [Fh _].
    set (nf := ofZ (B64 L) (Z.of_nat n)). assert (Nn : 34 <= IZR (Z.of_nat n) <= 2 ^ 63).
    { split; [apply (IZR_le 34); lia|]. unfold INT64_MAX in I. apply Rle_trans with (IZR (2 ^ 63)); [apply IZR_le; lia|right; symmetry; exact (pow_IZR 2 63)]. }
    assert (okn : okf nf (IZR (Z.of_nat n))). { apply ofZ_okf. rewrite Rabs_pos_eq by lra. pose proof big64_ge. assert (2 ^ 63 <= 2 ^ 200) by (apply Rle_pow; [lra|lia]). lra. }
    destruct okn as [Fn En].
    assert (N34 : 34 <= B2R nf). { rewrite En. apply round_ge_generic; [apply (fexp_correct 53 1024 Hp53)|apply valid_rnd_N|apply (gf_int 34); lia|lra]. }
    set (pw := npow (B64 L) (lit (B64 L) 5 (-1)) nf).
    assert (PW : is_finite pw = true /\ - / 2 ^ 200 <= B2R pw <= / 2 ^ 33 /\ Rabs (B2R pw - / 2 ^ n) <= / 2 ^ 59).
    { set (q := Rpower (/ 2) (B2R nf)).
      assert (Q34 : 0 < q <= / 2 ^ 34). { split; [apply exp_pos|]. unfold q. rewrite Rpower_half, Rpower_Ropp. apply Rinv_le_contravar; [apply pow_lt; lra|]. rewrite <- Rpower_pow by lra. apply Rle_Rpower; [lra|]. replace (INR 34) with 34 by (simpl; ring). lra. }
      destruct (pow_acc _ _ _ _ L HL (lit (B64 L) 5 (-1)) nf Fh Fn) as [FP CP]; [rewrite Eh; lra|rewrite Eh; fold q; eapply Rle_trans; [apply (proj2 Q34)|]; apply Rle_trans with (bpow radix2 0); [cbn; lra|apply bpow_le; lia]|].
      change (m_pow _ _ L (lit (B64 L) 5 (-1)) nf) with pw in FP, CP. rewrite Eh in CP. fold q in CP. rewrite (Rabs_pos_eq q) in CP by lra.
      assert (C1 : bpow radix2 (2 - 53) = / 2 ^ 51) by exact (bpow_neg 51). rewrite C1 in CP.
      assert (C2 : bpow radix2 (3 - 1024 - 53) <= / 2 ^ 200). { eapply Rle_trans; [apply (bpow_le radix2 _ (-200)); lia|]. right. exact (bpow_neg 200). }
      pose proof CP as CP'. apply Rabs_le_between in CP. assert (/ 2 ^ 51 * q <= / 2 ^ 51 * / 2 ^ 34) by (apply Rmult_le_compat_l; lra).
      split; [exact FP|]. split; [assert (0 <= / 2 ^ 51 * q <= q) by nra; lra|].
      assert (D : Rabs (q - / 2 ^ n) <= / 2 ^ 60).
      { destruct (Z.le_gt_cases (Z.of_nat n) (2 ^ 53)) as [K|K].
        - assert (En' : B2R nf = INR n) by (rewrite En, INR_IZR_INZ; apply round_generic; [apply valid_rnd_N|apply gf_int; lia]).
          unfold q. rewrite En', Rpower_half, Rpower_Ropp, Rpower_pow by lra. rewrite Rminus_eq_0, Rabs_R0. left. apply Rinv_0_lt_compat, pow_lt. lra.
        - assert (N53 : 100 <= B2R nf). { rewrite En. apply round_ge_generic; [apply (fexp_correct 53 1024 Hp53)|apply valid_rnd_N|apply (gf_int 100); lia|apply (IZR_le 100); lia]. }
          assert (Q2 : q <= / 2 ^ 61). { unfold q. rewrite Rpower_half, Rpower_Ropp. apply Rinv_le_contravar; [apply pow_lt; lra|]. rewrite <- Rpower_pow by lra. apply Rle_Rpower; [lra|]. replace (INR 61) with 61 by (simpl; ring). lra. }
          assert (Q3 : 0 < / 2 ^ n <= / 2 ^ 61) by (split; [apply Rinv_0_lt_compat, pow_lt; lra|apply Rinv_le_contravar; [apply pow_lt; lra|apply Rle_pow; [lra|lia]]]).
          apply Rabs_le. lra. }
      replace (B2R pw - / 2 ^ n) with ((B2R pw - q) + (q - / 2 ^ n)) by ring. eapply Rle_trans; [apply Rabs_triang|]. lra. }
    destruct PW as (Fp & Bp & Ap).
    assert (NN : 0 < / 2 ^ n <= / 2 ^ 34) by (split; [apply Rinv_0_lt_compat, pow_lt; lra|apply Rinv_le_contravar; [apply pow_lt; lra|apply Rle_pow; [lra|lia]]]).
    pose proof (sub_okf L (lit (B64 L) 1 0) pw F1 Fp) as SB. rewrite E1 in SB. specialize (SB ltac:(rewrite Rabs_pos_eq by lra; pose proof big64_ge; lra)). fold pw. pose proof (okf_err _ _ SB) as SE.
    destruct SB as [Fs _]. set (sf := sub (B64 L) (lit (B64 L) 1 0) pw) in *. rewrite (Rabs_pos_eq (1 - B2R pw)) in SE by lra. rewrite u64_val in SE. pose proof s64_small as SS.
    pose proof u53 as U. set (u := / 2 ^ 53) in *. assert (US : / 2 ^ 59 = u / 64) by (unfold u; lra). assert (US2 : / 2 ^ 200 <= u / 2 ^ 100) by (unfold u; lra).
    apply Rabs_le_between in SE. apply Rabs_le_between in Ap.
    assert (SE2 : - (u * (1 + / 16)) <= B2R sf - (1 - / 2 ^ n) <= u * (1 + / 16)) by nra.
    assert (SV : 1 - / 2 ^ 32 <= B2R sf <= 1 + / 2 ^ 32) by (unfold u in *; lra).
    assert (IV : 1 - / 2 ^ 30 <= / B2R sf <= 1 + / 2 ^ 30).
    { split; apply (Rmult_le_reg_r (B2R sf)); try lra; rewrite Rinv_l by lra; nra. }
    pose proof (div_okf L (lit (B64 L) 1 0) sf F1 ltac:(lra)) as DV. rewrite E1 in DV. unfold Rdiv in DV. rewrite Rmult_1_l in DV.
    specialize (DV ltac:(rewrite Rabs_pos_eq by lra; pose proof big64_ge; lra)). pose proof (okf_err _ _ DV) as DE. destruct DV as [Fd _]. split; [exact Fd|].
    rewrite (Rabs_pos_eq (/ B2R sf)) in DE by lra. rewrite u64_val in DE. fold u in DE. set (df := div (B64 L) (lit (B64 L) 1 0) sf) in *. apply Rabs_le_between in DE.
    pose proof (zeta_closed n ltac:(lia)) as ZC. apply Rabs_le_between in ZC. set (a := / 2 ^ n) in *. clearbody a.
    assert (INV : / B2R sf - / (1 - a) = ((1 - a) - B2R sf) * (/ B2R sf * / (1 - a))) by (field; lra).
    assert (IN : 1 <= / (1 - a) <= 1 + / 2 ^ 30). { split; apply (Rmult_le_reg_r (1 - a)); try lra; rewrite Rinv_l by lra; nra. }
    assert (PR : 0 <= / B2R sf * / (1 - a) <= 1 + / 16) by (split; [apply Rmult_le_pos; lra|apply Rle_trans with ((1 + / 2 ^ 30) * (1 + / 2 ^ 30)); [apply Rmult_le_compat; lra|lra]]).
    assert (ID : - (u * (12 / 10)) <= / B2R sf - / (1 - a) <= u * (12 / 10)).
    { apply Rabs_le_between. rewrite INV, Rabs_mult, (Rabs_pos_eq (/ B2R sf * / (1 - a))) by lra.
      apply Rle_trans with (u * (1 + / 16) * (1 + / 16)); [|lra]. apply Rmult_le_compat; [apply Rabs_pos|lra|apply Rabs_le; lra|lra]. }
    assert (U2 : u * (/ B2R sf) <= u * (11 / 10)) by (apply Rmult_le_compat_l; lra).
    assert (US3 : 67 / 10 ^ 18 <= u * (61 / 100)) by (unfold u; lra). assert (US4 : s64 <= u / 100) by lra.
    assert (TT : u * (295 / 100) <= 3 * u * Rabs (ReLi n 1)) by (rewrite (Rmult_comm 3 u), Rmult_assoc; apply Rmult_le_compat_l; lra).
    eapply Rle_trans; [|exact TT]. apply Rabs_le. lra.
Qed.
End C02.
Example C02_nonvacuous : exists s, is_series (fun k => / INR (S k) ^ 2) s.
Proof. exists (ReLi 2 1). eapply is_series_ext; [|exact (zeta_is_series 2 (le_n 2))]. intros k. unfold aterm. cbn [andb]. unfold Rdiv. apply Rmult_1_l. Qed.
Example C06_nonvacuous : exists s, is_series (fun k => (-1) ^ S k / INR (S k) ^ 1) s.
Proof. exists (ReLi 1 (-1)). exact (eta_series_all 1 (le_n 1)). Qed.

(** ** C01 *)
Section C01.
Variable L : libm 53 1024.
Fixpoint bfact (n : nat) : bigZ := match n with O => BigZ.one | S m => BigZ.mul (BigZ.of_Z (Z.of_nat n)) (bfact m) end.
Local Notation zr x := (IZR (BigZ.to_Z x)).
Lemma bfact_ok n : zr (bfact n) = INR (fact n).
Proof.
  induction n as [|n IH]; [cbn [bfact fact]; rewrite BigZ.spec_1; reflexivity|]. cbn [bfact]. rewrite BigZ.spec_mul, BigZ.spec_of_Z, mult_IZR, IH, <- INR_IZR_INZ, <- mult_INR. reflexivity.
Qed.
(** |d n! - 1| <= 60e-18 *)
Definition ifck (d : Z * Z) (n : nat) : bool :=
  BigZ.leb (BigZ.mul (BigZ.abs (BigZ.sub (BigZ.mul (dnum d) (bfact n)) (dden d))) (BigZ.of_Z (10 ^ 18))) (BigZ.mul (BigZ.of_Z 60) (dden d)).
Lemma ifck_all : forallb (fun n => ifck (nth n INVERSE_FACTORIALS (0, 0)%Z) n) (seq 0 178) = true.
Proof. vm_compute. reflexivity. Qed.
Lemma ifck_ok d n : ifck d n = true -> Rabs (litR (fst d) (snd d) - / INR (fact n)) <= 60 / 10 ^ 18 * / INR (fact n).
Proof.
  unfold ifck. rewrite BigZ.spec_leb, !BigZ.spec_mul, BigZ.spec_abs, BigZ.spec_sub, BigZ.spec_mul, !BigZ.spec_of_Z. intros H. apply Z.leb_le, IZR_le in H.
  rewrite !mult_IZR, abs_IZR, minus_IZR, mult_IZR, bfact_ok in H. replace (IZR (10 ^ 18)) with (10 ^ 18) in H by exact (pow_IZR 10 18). rewrite litR_frac. pose proof (dden_pos d) as Q.
  assert (F : 0 < INR (fact n)) by apply INR_fact_lt_0. set (f := INR (fact n)) in *. set (a := zr (dnum d)) in *. set (q := zr (dden d)) in *. clearbody f a q.
  assert (W : 0 < 10 ^ 18) by lra. set (w := 10 ^ 18) in *. clearbody w.
  replace (a / q - / f) with ((a * f - q) * / (q * f)) by (field; lra). rewrite Rabs_mult, (Rabs_pos_eq (/ _)) by (left; apply Rinv_0_lt_compat; nra).
  apply (Rmult_le_reg_r (q * f * w)); [apply Rmult_lt_0_compat; [nra|lra]|].
  replace (Rabs (a * f - q) * / (q * f) * (q * f * w)) with (Rabs (a * f - q) * w) by (field; lra).
  replace (60 / w * / f * (q * f * w)) with (60 * q) by (field; lra). exact H.
Qed.
Lemma fact_mono a c : (a <= c)%nat -> INR (fact a) <= INR (fact c).
Proof. intros H. apply le_INR, fact_le, H. Qed.
Lemma fact_le_pow n e : BigZ.leb (bfact n) (BigZ.of_Z (2 ^ Z.of_nat e)) = true -> bpow radix2 (- Z.of_nat e) <= / INR (fact n).
Proof. rewrite BigZ.spec_leb, BigZ.spec_of_Z. intros H. apply Z.leb_le, IZR_le in H. rewrite bfact_ok, <- pow_IZR in H. rewrite bpow_neg. apply Rinv_le_contravar; [apply INR_fact_lt_0|exact H]. Qed.
Lemma fact_ge_pow n e : BigZ.leb (BigZ.of_Z (2 ^ Z.of_nat e)) (bfact n) = true -> / INR (fact n) <= bpow radix2 (- Z.of_nat e).
Proof. rewrite BigZ.spec_leb, BigZ.spec_of_Z. intros H. apply Z.leb_le, IZR_le in H. rewrite bfact_ok, <- pow_IZR in H. rewrite bpow_neg. apply Rinv_le_contravar; [apply pow_lt; lra|exact H]. Qed.
Lemma fact_b170 : bpow radix2 (-1021) <= / INR (fact 170). Proof. apply (fact_le_pow 170 1021). vm_compute. reflexivity. Qed.
Lemma fact_b171 : / INR (fact 171) <= bpow radix2 (-1026). Proof. apply (fact_ge_pow 171 1026). vm_compute. reflexivity. Qed.
Lemma fact_b177 : bpow radix2 (-1072) <= / INR (fact 177). Proof. apply (fact_le_pow 177 1072). vm_compute. reflexivity. Qed.
Lemma fact_b178 : / INR (fact 178) <= bpow radix2 (-1076). Proof. apply (fact_ge_pow 178 1076). vm_compute. reflexivity. Qed.
Lemma inv_fact_mono a c : (a <= c)%nat -> / INR (fact c) <= / INR (fact a).
Proof. intros H. apply Rinv_le_contravar; [apply INR_fact_lt_0|apply fact_mono, H]. Qed.
Theorem C01_inv_fac_negative n : (n < 0)%Z -> inv_fac (B64 L) n = Val B754_nan.
Proof. intros H. rewrite inv_fac_neg by exact H. reflexivity. Qed.
Lemma inv_fac_lit (n : nat) : (n <= 177)%nat -> exists m e, inv_fac (B64 L) (Z.of_nat n) = Val (lit (B64 L) m e) /\
  Rabs (litR m e - / INR (fact n)) <= 60 / 10 ^ 18 * / INR (fact n) /\ Rabs (litR m e) <= big64 /\ 0 < litR m e /\ okf (lit (B64 L) m e) (litR m e).
Proof.
  intros H. destruct (inv_fac_table (B64 L) (Z.of_nat n) ltac:(lia)) as (d & A & E). rewrite Nat2Z.id in A.
  apply nth_error_nth' with (d := (0, 0)%Z) in A. pose proof ifck_all as C. rewrite forallb_forall in C. specialize (C n ltac:(apply in_seq; lia)). rewrite A in C. apply ifck_ok in C.
  exists (fst d), (snd d). split; [exact E|]. split; [exact C|]. assert (0 < / INR (fact n)) by (apply Rinv_0_lt_compat, INR_fact_lt_0).
  assert (/ INR (fact n) <= 1) by (pose proof (inv_fact_mono 0 n ltac:(lia)) as M; cbn [fact] in M; change (INR 1) with 1 in M; rewrite Rinv_1 in M; exact M).
  apply Rabs_le_between in C. assert (0 < litR (fst d) (snd d)) by lra. assert (Rabs (litR (fst d) (snd d)) <= big64) by (rewrite Rabs_pos_eq by lra; pose proof big64_ge; lra).
  split; [assumption|]. split; [assumption|]. apply lit_okf. assumption.
Qed.
(** normal range: relative error of at most two units of 2^-53 *)
Theorem C01_inv_fac_normal (n : nat) : (n <= 170)%nat -> exists f, inv_fac (B64 L) (Z.of_nat n) = Val f /\ rel64 2 f (/ INR (fact n)).
Proof.
  intros H. destruct (inv_fac_lit n ltac:(lia)) as (m & e & E & C & G & P & _). eexists. split; [exact E|].
  assert (0 < / INR (fact n)) by (apply Rinv_0_lt_compat, INR_fact_lt_0). apply lit_rel64; [exact G| |rewrite (Rabs_pos_eq (/ _)) by lra; lra].
  pose proof (inv_fact_mono n 170 ltac:(lia)). pose proof fact_b170 as F. rewrite Rabs_pos_eq by lra. apply Rabs_le_between in C.
  change (-1021)%Z with (-1022 + 1)%Z in F. rewrite bpow_plus in F. change (bpow radix2 1) with 2 in F. lra.
Qed.
(** underflow range: within the smallest subnormal; 0 exactly when 1/n! is below half of it *)
Theorem C01_inv_fac_underflow (n : nat) : (171 <= n)%nat -> exists f, inv_fac (B64 L) (Z.of_nat n) = Val f /\ is_finite f = true /\ Rabs (B2R f - / INR (fact n)) <= bpow radix2 (-1074).
Proof.
  intros H. assert (0 < / INR (fact n)) by (apply Rinv_0_lt_compat, INR_fact_lt_0). destruct (Nat.le_gt_cases n 177) as [K|K].
  - destruct (inv_fac_lit n ltac:(lia)) as (m & e & E & C & G & P & O). eexists. split; [exact E|]. split; [exact (proj1 O)|].
    pose proof (okf_err _ _ O) as R1. rewrite (Rabs_pos_eq (litR m e)) in R1 by lra. pose proof (inv_fact_mono 171 n ltac:(lia)). pose proof fact_b171 as F.
    unfold u64, s64 in R1. change (-1026)%Z with (-53 + -973)%Z in F.
    replace (B2R (lit (B64 L) m e) - / INR (fact n)) with ((B2R (lit (B64 L) m e) - litR m e) + (litR m e - / INR (fact n))) by ring. eapply Rle_trans; [apply Rabs_triang|].
    change (-1074)%Z with (-1075 + 1)%Z. rewrite bpow_plus. change (bpow radix2 1) with 2.
    assert (T : bpow radix2 (-1026) = bpow radix2 (-1075) * 2 ^ 49) by (change (-1026)%Z with (-1075 + 49)%Z; rewrite bpow_plus; f_equal; exact (bpow_nat 49)).
    change (-53 + -973)%Z with (-1026)%Z in F. rewrite T in F. assert (U : bpow radix2 (-53) = / 2 ^ 53) by exact (bpow_neg 53). rewrite U in R1. pose proof (bpow_gt_0 radix2 (-1075)). apply Rabs_le_between in C.
    assert (Rabs (litR m e - / INR (fact n)) <= 60 / 10 ^ 18 * / INR (fact n)) by (apply Rabs_le; lra). set (s := bpow radix2 (-1075)) in *. lra.
  - rewrite inv_fac_large by lia. eexists. split; [reflexivity|]. split; [reflexivity|]. change (B2R (lit (B64 L) 0 0)) with 0. rewrite Rminus_0_l, Rabs_Ropp, Rabs_pos_eq by lra.
    eapply Rle_trans; [apply (inv_fact_mono 178); lia|]. eapply Rle_trans; [apply fact_b178|]. apply bpow_le. lia.
Qed.
Theorem C01_inv_fac_zero_iff (n : nat) f : inv_fac (B64 L) (Z.of_nat n) = Val f -> (B2R f = 0 <-> / INR (fact n) < bpow radix2 (-1075)).
Proof.
  intros V. destruct (Nat.le_gt_cases n 177) as [K|K].
  - destruct (inv_fac_lit n K) as (m & e & E & C & G & P & [_ O]). rewrite E in V. injection V as <-. pose proof (inv_fact_mono n 177 K) as M. pose proof fact_b177 as F.
    assert (bpow radix2 (-1072) <= / INR (fact n)) by lra. split.
    + intros Z. assert (Z1 : rnd64 (litR m e) = 0) by (rewrite <- O; exact Z). apply Rabs_le_between in C. exfalso. change (-1072)%Z with (-1073 + 1)%Z in H. rewrite bpow_plus in H. change (bpow radix2 1) with 2 in H. pose proof (bpow_gt_0 radix2 (-1073)).
      assert (Q : bpow radix2 (-1073) <= litR m e) by lra. assert (bpow radix2 (-1073) <= rnd64 (litR m e)); [|lra].
      apply round_ge_generic; [apply (fexp_correct 53 1024 Hp53)|apply valid_rnd_N| |exact Q]. apply generic_format_bpow. vm_compute. discriminate.
    + intros Z. assert (bpow radix2 (-1075) <= bpow radix2 (-1072)) by (apply bpow_le; lia). lra.
  - rewrite inv_fac_large in V by lia. injection V as <-. split; [intros _|reflexivity]. eapply Rle_lt_trans; [apply (inv_fact_mono 178); lia|]. eapply Rle_lt_trans; [apply fact_b178|]. apply bpow_lt. lia.
Qed.
End C01.
