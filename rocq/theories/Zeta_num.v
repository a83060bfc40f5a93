(** * Numeric values of zeta(n) and -eta(n), and the tables of zeta.cpp / eta.cpp (n >= 1) in exact arithmetic *)
From Coq Require Import Reals Lra Lia Psatz ZArith List Bool.
From Coquelicot Require Import Coquelicot.
From Verif Require Import Num NumR Eval_R Cheb Cheb_big Poly_check Polylog Polylog_series Polylog_eqs Clausen_vals Proof_Li2 Proof_Li3 Series Model_Tables.
Import ListNotations.
Local Open Scope R_scope.

(** ** sums in 30-digit fixed point *)
Definition SC : Z := 10 ^ 30.
(** sum_{k=1}^{M} sg^(k) floor(10^30/k^n) *)
Fixpoint fsum (alt : bool) (n : nat) (M : nat) : Z :=
  match M with
  | O => 0
  | S M' => (fsum alt n M' + (if (alt && Nat.odd M)%bool then -1 else 1) * (SC / Z.of_nat M ^ Z.of_nat n))%Z
  end.
Definition aterm (alt : bool) (n k : nat) : R := (if (alt && Nat.odd (S k))%bool then -1 else 1) / INR (S k) ^ n.
Lemma SC_pos : 0 < IZR SC. Proof. apply (IZR_lt 0). reflexivity. Qed.
Lemma floor_div a b : (0 < b)%Z -> 0 <= IZR a / IZR b - IZR (a / b) <= 1.
Proof.
  intros H. assert (B : 0 < IZR b) by (apply (IZR_lt 0); exact H). pose proof (Z.div_mod a b ltac:(lia)) as E. pose proof (Z.mod_pos_bound a b H) as R.
  assert (Q : IZR a / IZR b - IZR (a / b) = IZR (a mod b) / IZR b) by (rewrite E at 1; rewrite plus_IZR, mult_IZR; field; lra).
  rewrite Q. destruct R as [R1 R2]. apply IZR_le in R1. apply IZR_lt in R2. split; [apply Rdiv_le_0_compat; lra|].
  apply (Rmult_le_reg_r (IZR b)); [exact B|]. unfold Rdiv. rewrite Rmult_assoc, Rinv_l, Rmult_1_r by lra. lra.
Qed.
Lemma fsum_ok alt n M : Rabs (IZR (fsum alt n (S M)) - IZR SC * sum_f_R0 (aterm alt n) M) <= INR (S M).
Proof.
  assert (T : forall k, exists e, Rabs e <= 1 /\ IZR ((if (alt && Nat.odd (S k))%bool then -1 else 1) * (SC / Z.of_nat (S k) ^ Z.of_nat n)) = IZR SC * aterm alt n k + e).
  { intros k. pose proof (floor_div SC (Z.of_nat (S k) ^ Z.of_nat n) ltac:(apply Z.pow_pos_nonneg; lia)) as F.
    rewrite <- pow_IZR, <- INR_IZR_INZ in F. unfold aterm. rewrite mult_IZR. set (w := IZR (SC / _)) in *.
    exists ((if (alt && Nat.odd (S k))%bool then -1 else 1) * (w - IZR SC / INR (S k) ^ n)). split.
    - rewrite Rabs_mult. replace (Rabs _) with 1 by (destruct (alt && Nat.odd (S k))%bool; [rewrite Rabs_left by lra; ring|rewrite Rabs_pos_eq by lra; reflexivity]).
      rewrite Rmult_1_l. apply Rabs_le. lra.
    - destruct (alt && Nat.odd (S k))%bool; unfold Rdiv; ring. }
  induction M as [|M IH].
  - destruct (T 0%nat) as (e & He & E). cbn [fsum sum_f_R0]. rewrite Z.add_0_l. rewrite E. change (INR 1) with 1. replace (IZR SC * aterm alt n 0 + e - IZR SC * aterm alt n 0) with e by ring. exact He.
  - destruct (T (S M)) as (e & He & E). change (fsum alt n (S (S M))) with (fsum alt n (S M) + (if (alt && Nat.odd (S (S M)))%bool then -1 else 1) * (SC / Z.of_nat (S (S M)) ^ Z.of_nat n))%Z.
    rewrite plus_IZR, E, tech5, (S_INR (S M)).
    replace (IZR (fsum alt n (S M)) + (IZR SC * aterm alt n (S M) + e) - IZR SC * (sum_f_R0 (aterm alt n) M + aterm alt n (S M)))
      with ((IZR (fsum alt n (S M)) - IZR SC * sum_f_R0 (aterm alt n) M) + e) by ring.
    eapply Rle_trans; [apply Rabs_triang|]. lra.
Qed.
Lemma aterm_bd alt n k : Rabs (aterm alt n k) <= / INR (S k) ^ n.
Proof.
  unfold aterm, Rdiv. rewrite Rabs_mult, (Rabs_pos_eq (/ _)) by (left; apply Rinv_0_lt_compat, pow_lt, lt_0_INR; lia).
  right. replace (Rabs _) with 1; [ring|]. destruct (alt && Nat.odd (S k))%bool; [rewrite Rabs_left by lra; ring|rewrite Rabs_pos_eq by lra; reflexivity].
Qed.
Lemma m1_odd k : (-1) ^ k = if Nat.odd k then -1 else 1.
Proof.
  induction k as [|k IH]; [reflexivity|]. rewrite Nat.odd_succ, <- Nat.negb_odd. cbn [pow]. rewrite IH. destruct (Nat.odd k); cbn [negb]; ring.
Qed.
Lemma eta_is_series n : (2 <= n)%nat -> is_series (aterm true n) (ReLi n (-1)).
Proof.
  intros H. eapply is_series_ext; [|apply ReLi_m1_series; exact H]. intros k. unfold aterm. cbn [andb]. rewrite m1_odd. reflexivity.
Qed.
Lemma zeta_is_series n : (2 <= n)%nat -> is_series (aterm false n) (ReLi n 1).
Proof.
  intros H. eapply is_series_ext; [|apply ReLi_at_1; exact H]. intros k. unfold aterm, zterm, Rdiv. cbn [andb]. rewrite Rmult_1_l. reflexivity.
Qed.
Lemma pow41 n : (12 <= n)%nat -> / INR 41 ^ (n - 1) / INR (n - 1) <= 2 / 10 ^ 19.
Proof.
  intros H. assert (A : 41 ^ 11 <= INR 41 ^ (n - 1)). { replace (INR 41) with 41 by (simpl; ring). apply Rle_pow; [lra|lia]. }
  assert (B : 11 <= INR (n - 1)). { replace 11 with (INR 11) by (simpl; ring). apply le_INR. lia. }
  apply Rle_trans with (/ 41 ^ 11 / 11); [|lra].
  apply Rmult_le_compat; [left; apply Rinv_0_lt_compat, pow_lt, lt_0_INR; lia|left; apply Rinv_0_lt_compat; lra|apply Rinv_le_contravar; [apply pow_lt; lra|exact A]|apply Rinv_le_contravar; lra].
Qed.
Lemma comb_err (f S0 s c a : R) : 0 < c -> Rabs (f - c * S0) <= 41 -> Rabs (S0 - s) <= a -> 41 / c <= 1 / 10 ^ 28 -> a <= 2 / 10 ^ 19 -> Rabs (f / c - s) <= 3 / 10 ^ 19.
Proof.
  intros SP F T E P.
  assert (F' : Rabs (f / c - S0) <= 41 / c).
  { replace (f / c - S0) with ((f - c * S0) / c) by (field; lra).
    unfold Rdiv. rewrite Rabs_mult, (Rabs_pos_eq (/ _)) by (left; apply Rinv_0_lt_compat; exact SP). apply Rmult_le_compat_r; [left; apply Rinv_0_lt_compat; exact SP|exact F]. }
  replace (f / c - s) with ((f / c - S0) + (S0 - s)) by ring. eapply Rle_trans; [apply Rabs_triang|]. lra.
Qed.
Lemma SC41 : 41 / IZR SC <= 1 / 10 ^ 28.
Proof. unfold SC. p10 30%nat. lra. Qed.
Lemma fsum_ok41 alt n : Rabs (IZR (fsum alt n 41) - IZR SC * sum_f_R0 (aterm alt n) 40) <= 41.
Proof. eapply Rle_trans; [exact (fsum_ok alt n 40)|]. right. simpl. ring. Qed.
Opaque fsum.
Lemma fsum_series alt n s : (12 <= n)%nat -> is_series (aterm alt n) s -> Rabs (IZR (fsum alt n 41) / IZR SC - s) <= 3 / 10 ^ 19.
Proof.
  intros H S. pose proof (tail_series (aterm alt n) (n - 1) 40 s ltac:(lia) ltac:(intros k; replace (Datatypes.S (n - 1)) with n by lia; apply aterm_bd) S) as T.
  exact (comb_err _ _ _ _ _ SC_pos (fsum_ok41 alt n) T SC41 (pow41 n H)).
Qed.

(** ** -eta(n) = ReLi n (-1) *)
Definition eta_small (n : nat) : Z := ((- evZ (rf_poly refN n) (-1) * SC) / rf_den refN n)%Z.
Definition etas_small : list Z := Eval vm_compute in map eta_small (seq 1 11).
Definition eta_n (n : nat) : Z := if Nat.leb n 11 then nth (n - 1) etas_small 0%Z else fsum true n 41.
Lemma etas_check : forallb (fun n => m1_check n (eta_n n) 30 1) (seq 1 11) = true.
Proof. vm_compute. reflexivity. Qed.
Lemma eta_n_ok n : (1 <= n)%nat -> Rabs (IZR (eta_n n) / IZR SC - ReLi n (-1)) <= 3 / 10 ^ 19.
Proof.
  intros H. destruct (Nat.leb_spec n 11) as [L|L].
  - pose proof etas_check as C. rewrite forallb_forall in C. specialize (C n ltac:(apply in_seq; lia)).
    pose proof (m1_ok n (eta_n n) 30 1 H C) as B. change (10 ^ 30)%Z with SC in B. eapply Rle_trans; [exact B|]. unfold SC. p10 30%nat. lra.
  - unfold eta_n. destruct (Nat.leb_spec n 11); [lia|]. apply fsum_series; [lia|apply eta_is_series; lia].
Qed.
(** zeta(n) = -eta(-1) 2^(n-1)/(2^(n-1)-1) *)
Definition zeta_n (n : nat) : Z := if Nat.leb n 11 then (- eta_n n * 2 ^ Z.of_nat n / (2 ^ Z.of_nat n - 2))%Z else fsum false n 41.
Lemma zeta_n_ok n : (2 <= n)%nat -> Rabs (IZR (zeta_n n) / IZR SC - ReLi n 1) <= 7 / 10 ^ 19.
Proof.
  intros H. unfold zeta_n. destruct (Nat.leb_spec n 11) as [L|L].
  - pose proof (eta_n_ok n ltac:(lia)) as B. pose proof (ReLi_at_m1 n H) as E. pose proof SC_pos as SP.
    assert (G : (4 <= 2 ^ Z.of_nat n)%Z) by (change 4%Z with (2 ^ 2)%Z; apply Z.pow_le_mono_r; lia).
    pose proof (floor_div (- eta_n n * 2 ^ Z.of_nat n) (2 ^ Z.of_nat n - 2) ltac:(lia)) as F.
    rewrite mult_IZR, opp_IZR, minus_IZR, <- pow_IZR in F. apply IZR_le in G. rewrite <- pow_IZR in G. set (t := 2 ^ n) in *. set (w := IZR (_ / _)) in *.
    assert (Z1 : ReLi n 1 = - ReLi n (-1) * t / (t - 2)). { apply (Rmult_eq_reg_r (2 - t)); [|lra]. replace (- ReLi n (-1) * t / (t - 2) * (2 - t)) with (t * ReLi n (-1)) by (field; lra). rewrite E. ring. }
    assert (W : Rabs (w / IZR SC - - IZR (eta_n n) / IZR SC * t / (t - 2)) <= / IZR SC).
    { replace (w / IZR SC - - IZR (eta_n n) / IZR SC * t / (t - 2)) with (- ((- IZR (eta_n n) * t / (t - 2) - w) / IZR SC)) by (field; lra).
      rewrite Rabs_Ropp. unfold Rdiv at 1. rewrite Rabs_mult, (Rabs_pos_eq (/ IZR SC)) by (left; apply Rinv_0_lt_compat; exact SP).
      rewrite <- (Rmult_1_l (/ IZR SC)) at 2. apply Rmult_le_compat_r; [left; apply Rinv_0_lt_compat; exact SP|]. apply Rabs_le. lra. }
    replace (w / IZR SC - ReLi n 1) with ((w / IZR SC - - IZR (eta_n n) / IZR SC * t / (t - 2)) - (IZR (eta_n n) / IZR SC - ReLi n (-1)) * (t / (t - 2))) by (rewrite Z1; field; lra).
    unfold Rminus at 1. eapply Rle_trans; [apply Rabs_triang|]. rewrite Rabs_Ropp, (Rabs_mult _ (t / (t - 2))).
    assert (Q : Rabs (t / (t - 2)) <= 2). { rewrite Rabs_pos_eq by (apply Rdiv_le_0_compat; lra). apply (Rmult_le_reg_r (t - 2)); [lra|]. unfold Rdiv. rewrite Rmult_assoc, Rinv_l by lra. lra. }
    assert (E30 : / IZR SC <= / 10 ^ 29). { unfold SC. p10 30%nat. lra. }
    pose proof (Rabs_pos (t / (t - 2))). pose proof (Rabs_pos (IZR (eta_n n) / IZR SC - ReLi n (-1))).
    assert (M : Rabs (IZR (eta_n n) / IZR SC - ReLi n (-1)) * Rabs (t / (t - 2)) <= 3 / 10 ^ 19 * 2) by (apply Rmult_le_compat; assumption). lra.
  - eapply Rle_trans; [apply fsum_series; [lia|apply zeta_is_series; lia]|]. lra.
Qed.

(** ** the tables *)
(** |m 10^e - v 10^-30| <= tol 10^-30, for e <= 0 *)
Definition near (d : Z * Z) (v tol : Z) : bool := ((snd d <=? 0) && (-30 <=? snd d) && (Z.abs (fst d * 10 ^ (30 + snd d) - v) <=? tol))%Z%bool.
Lemma near_ok d v tol : near d v tol = true -> Rabs (litR (fst d) (snd d) - IZR v / IZR SC) <= IZR tol / IZR SC.
Proof.
  unfold near. rewrite !andb_true_iff, !Z.leb_le. intros [[H1 H2] H3]. pose proof SC_pos as SP.
  assert (E : litR (fst d) (snd d) = IZR (fst d * 10 ^ (30 + snd d)) / IZR SC).
  { unfold litR. destruct (0 <=? snd d)%Z eqn:Q.
    - apply Z.leb_le in Q. replace (snd d) with 0%Z by lia. cbn [Z.pow]. rewrite Z.mul_1_r, Z.add_0_r. change (10 ^ 30)%Z with SC. rewrite mult_IZR. field. lra.
    - assert (S1 : IZR SC = IZR (10 ^ (30 + snd d)) * IZR (10 ^ (- snd d))) by (rewrite <- mult_IZR, <- Z.pow_add_r by lia; unfold SC; do 2 f_equal; lia).
      rewrite S1, mult_IZR. assert (0 < IZR (10 ^ (30 + snd d))) by (apply (IZR_lt 0), Z.pow_pos_nonneg; lia). assert (0 < IZR (10 ^ (- snd d))) by (apply (IZR_lt 0), Z.pow_pos_nonneg; lia).
      field. split; lra. }
  rewrite E. replace (IZR (fst d * 10 ^ (30 + snd d)) / IZR SC - IZR v / IZR SC) with (IZR (fst d * 10 ^ (30 + snd d) - v) / IZR SC) by (rewrite minus_IZR; field; lra).
  unfold Rdiv. rewrite Rabs_mult, (Rabs_pos_eq (/ _)) by (left; apply Rinv_0_lt_compat; exact SP). apply Rmult_le_compat_r; [left; apply Rinv_0_lt_compat; exact SP|].
  rewrite <- abs_IZR. apply IZR_le. exact H3.
Qed.
Definition tol_z : Z := 51 * 10 ^ 12.
Definition tol_e : Z := 51 * 10 ^ 12.
Lemma zpos_check : forallb (fun n => near (nth (n - 2) ZETAS_POS (0, 0)%Z) (zeta_n n) tol_z) (seq 2 32) = true.
Proof. vm_compute. reflexivity. Qed.
Lemma eta_check : forallb (fun n => near (nth (n - 1) NEG_ETA (0, 0)%Z) (eta_n n) tol_e) (seq 1 54) = true.
Proof. vm_compute. reflexivity. Qed.
Theorem zpos_ok n : (2 <= n < 34)%nat -> let d := nth (n - 2) ZETAS_POS (0, 0)%Z in Rabs (litR (fst d) (snd d) - ReLi n 1) <= 52 / 10 ^ 18.
Proof.
  intros H d. pose proof zpos_check as C. rewrite forallb_forall in C. specialize (C n ltac:(apply in_seq; lia)). apply near_ok in C. fold d in C.
  pose proof (zeta_n_ok n ltac:(lia)) as Z. replace (litR (fst d) (snd d) - ReLi n 1) with ((litR (fst d) (snd d) - IZR (zeta_n n) / IZR SC) + (IZR (zeta_n n) / IZR SC - ReLi n 1)) by ring.
  eapply Rle_trans; [apply Rabs_triang|]. replace (IZR tol_z / IZR SC) with (51 / 10 ^ 18) in C by (unfold tol_z, SC; p10 30%nat; rewrite mult_IZR; p10 12%nat; field). lra.
Qed.
Theorem eta_ok n : (1 <= n < 55)%nat -> let d := nth (n - 1) NEG_ETA (0, 0)%Z in Rabs (litR (fst d) (snd d) - ReLi n (-1)) <= 52 / 10 ^ 18.
Proof.
  intros H d. pose proof eta_check as C. rewrite forallb_forall in C. specialize (C n ltac:(apply in_seq; lia)). apply near_ok in C. fold d in C.
  pose proof (eta_n_ok n ltac:(lia)) as Z. replace (litR (fst d) (snd d) - ReLi n (-1)) with ((litR (fst d) (snd d) - IZR (eta_n n) / IZR SC) + (IZR (eta_n n) / IZR SC - ReLi n (-1))) by ring.
  eapply Rle_trans; [apply Rabs_triang|]. replace (IZR tol_e / IZR SC) with (51 / 10 ^ 18) in C by (unfold tol_e, SC; p10 30%nat; rewrite mult_IZR; p10 12%nat; field). lra.
Qed.

(** ** beyond the tables *)
Lemma zeta_3terms n : (34 <= n)%nat -> Rabs (1 + / 2 ^ n + / 3 ^ n - ReLi n 1) <= / 3 ^ 33 / 33.
Proof.
  intros H. pose proof (tail_series (aterm false n) (n - 1) 2 _ ltac:(lia) ltac:(intros k; replace (S (n - 1)) with n by lia; apply aterm_bd) (zeta_is_series n ltac:(lia))) as T.
  cbn [sum_f_R0] in T. unfold aterm in T. cbn [andb] in T. replace (INR 1) with 1 in T by (simpl; ring). replace (INR 2) with 2 in T by (simpl; ring). replace (INR 3) with 3 in T by (simpl; ring).
  rewrite pow1 in T. replace (1 / 1 + 1 / 2 ^ n + 1 / 3 ^ n) with (1 + / 2 ^ n + / 3 ^ n) in T by (unfold Rdiv; rewrite Rinv_1; ring).
  eapply Rle_trans; [exact T|]. assert (33 <= INR (n - 1)) by (replace 33 with (INR 33) by (simpl; ring); apply le_INR; lia).
  assert (3 ^ 33 <= 3 ^ (n - 1)) by (apply Rle_pow; [lra|lia]). assert (0 < 3 ^ 33) by (apply pow_lt; lra).
  apply Rmult_le_compat; [left; apply Rinv_0_lt_compat; lra|left; apply Rinv_0_lt_compat; lra|apply Rinv_le_contravar; lra|apply Rinv_le_contravar; lra].
Qed.
Theorem zeta_closed n : (34 <= n)%nat -> Rabs (/ (1 - / 2 ^ n) - ReLi n 1) <= 67 / 10 ^ 18.
Proof.
  intros H. pose proof (zeta_3terms n H) as T. assert (A : 0 < / 2 ^ n <= / 2 ^ 34) by (split; [apply Rinv_0_lt_compat, pow_lt; lra|apply Rinv_le_contravar; [apply pow_lt; lra|apply Rle_pow; [lra|lia]]]).
  assert (B : 0 < / 3 ^ n <= / 3 ^ 34) by (split; [apply Rinv_0_lt_compat, pow_lt; lra|apply Rinv_le_contravar; [apply pow_lt; lra|apply Rle_pow; [lra|lia]]]).
  set (a := / 2 ^ n) in *. assert (C : / (1 - a) - (1 + a) = a * a / (1 - a)) by (field; lra).
  assert (D : 0 <= a * a / (1 - a) <= 2 * (/ 2 ^ 34 * / 2 ^ 34)).
  { split; [apply Rdiv_le_0_compat; nra|]. apply (Rmult_le_reg_r (1 - a)); [lra|]. unfold Rdiv. rewrite Rmult_assoc, Rinv_l, Rmult_1_r by lra.
    assert (a * a <= / 2 ^ 34 * / 2 ^ 34) by (apply Rmult_le_compat; lra). assert (/ 2 <= 1 - a) by lra. assert (0 <= / 2 ^ 34 * / 2 ^ 34) by nra. nra. }
  apply Rabs_le_between in T. apply Rabs_le. lra.
Qed.
Theorem eta_closed n : (55 <= n)%nat -> Rabs (-1 - ReLi n (-1)) <= 3 / 10 ^ 17.
Proof.
  intros H. pose proof (tail_series (aterm true n) (n - 1) 1 _ ltac:(lia) ltac:(intros k; replace (S (n - 1)) with n by lia; apply aterm_bd) (eta_is_series n ltac:(lia))) as T.
  cbn [sum_f_R0] in T. unfold aterm in T. cbn [andb Nat.odd Nat.even negb] in T. replace (INR 1) with 1 in T by (simpl; ring). replace (INR 2) with 2 in T by (simpl; ring).
  rewrite pow1 in T.
  assert (54 <= INR (n - 1)) by (replace 54 with (INR 54) by (simpl; ring); apply le_INR; lia).
  assert (2 ^ 54 <= 2 ^ (n - 1)) by (apply Rle_pow; [lra|lia]). assert (0 < 2 ^ 54) by (apply pow_lt; lra).
  assert (U : / 2 ^ (n - 1) / INR (n - 1) <= / 2 ^ 54 / 54) by (apply Rmult_le_compat; [left; apply Rinv_0_lt_compat; lra|left; apply Rinv_0_lt_compat; lra|apply Rinv_le_contravar; lra|apply Rinv_le_contravar; lra]).
  assert (A : 0 < / 2 ^ n <= / 2 ^ 55) by (split; [apply Rinv_0_lt_compat, pow_lt; lra|apply Rinv_le_contravar; [apply pow_lt; lra|apply Rle_pow; [lra|lia]]]).
  replace (-1 / 1 + 1 / 2 ^ n) with (-1 + / 2 ^ n) in T by (unfold Rdiv; rewrite Rinv_1; ring). apply Rabs_le_between in T. apply Rabs_le. lra.
Qed.
