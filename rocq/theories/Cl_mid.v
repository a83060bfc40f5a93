(** * Cl(n,x) for 7 <= n <= 9 in exact arithmetic: Eq. (2.13) of the cited paper *)
From Coq Require Import Reals ZArith Lra Lia List Bool.
From Coquelicot Require Import Coquelicot.
From Bignums Require Import BigZ.
From Verif Require Import Num Outcome NumR Eval_R Model_Tables Model_Zeta Polylog Polylog_series Clausen_vals Bern Bern_num Zeta_num Cot Eq213 Fourier Clausen Consts Cl_shape Proof_Cl Cl_full Series Red Proof_Series Proof_Int Model_Cl.
Import ListNotations.
Local Open Scope R_scope.
Local Notation zr x := (IZR (BigZ.to_Z x)).
Local Notation bz := BigZ.of_Z.

(** ** the table B *)
Definition clB (i : nat) : Z * Z := nth i CL_B (0, 0)%Z.
(** the coefficients the code uses: 1 and the table *)
Definition bt (k : nat) : R := match k with O => 1 | S i => litR (fst (clB i)) (snd (clB i)) end.
Definition bgen : list bigZ := unsome (gen 204 1 row2 [BigZ.of_Z Den]).
Fixpoint bfact (n : nat) : bigZ := match n with O => BigZ.one | S m => BigZ.mul (bz (Z.of_nat n)) (bfact m) end.
Lemma bfact_ok n : zr (bfact n) = INR (fact n).
Proof.
  induction n as [|n IH]; [exact (f_equal IZR BigZ.spec_1)|]. cbn [bfact]. rewrite BigZ.spec_mul, mult_IZR, BigZ.spec_of_Z, IH, <- INR_IZR_INZ. rewrite <- mult_INR. f_equal.
Qed.
(** |d - num/den| <= 60e-18 |num/den| *)
Definition relck1 (d : Z * Z) (num den : bigZ) : bool :=
  let a := dnum d in let b := dden d in
  BigZ.leb (BigZ.mul (absb (BigZ.sub (BigZ.mul a den) (BigZ.mul num b))) (bz (10 ^ 18))) (BigZ.mul (bz 60) (BigZ.mul (absb num) b)).
Lemma relck1_ok d num den : relck1 d num den = true -> 0 < zr den ->
  Rabs (litR (fst d) (snd d) - zr num / zr den) <= 60 / 10 ^ 18 * Rabs (zr num / zr den).
Proof.
  unfold relck1. intros H1 P.
  unfold absb in *. rewrite BigZ.spec_leb in H1. rewrite !BigZ.spec_mul, !BigZ.spec_abs, BigZ.spec_sub, !BigZ.spec_mul, !BigZ.spec_of_Z in H1.
  apply Z.leb_le, IZR_le in H1.
  rewrite !mult_IZR, !abs_IZR, minus_IZR, !mult_IZR in H1.
  pose proof (dden_pos d) as Q. rewrite litR_frac. set (a := zr (dnum d)) in *. set (q := zr (dden d)) in *. set (u := zr num) in *. set (v := zr den) in *. clearbody a q u v.
  assert (A2 : Rabs (u / v) = Rabs u / v) by (unfold Rdiv; rewrite Rabs_mult, (Rabs_pos_eq (/ v)) by (left; apply Rinv_0_lt_compat; exact P); reflexivity).
  assert (A3 : Rabs (a / q - u / v) = Rabs (a * v - u * q) / (q * v)).
  { replace (a / q - u / v) with ((a * v - u * q) * / (q * v)) by (field; lra). rewrite Rabs_mult, (Rabs_pos_eq (/ _)); [reflexivity|]. left. apply Rinv_0_lt_compat. nra. }
  rewrite A2, A3. replace (IZR (10 ^ 18)) with (10 ^ 18) in H1 by exact (pow_IZR 10 18).
  assert (W : 0 < 10 ^ 18) by (apply pow_lt; lra). set (w := 10 ^ 18) in *. clearbody w.
  apply (Rmult_le_reg_r (q * v * w)); [apply Rmult_lt_0_compat; [nra|lra]|].
  replace (Rabs (a * v - u * q) / (q * v) * (q * v * w)) with (Rabs (a * v - u * q) * w) by (field; lra).
  replace (60 / w * (Rabs u / v) * (q * v * w)) with (60 * (Rabs u * q)) by (field; lra). exact H1.
Qed.
Definition cb_num (l : list bigZ) (k : nat) : bigZ := if Nat.even k then nth (2 * k) l BigZ.zero else BigZ.opp (nth (2 * k) l BigZ.zero).
Definition cb_den (k : nat) : bigZ := BigZ.mul (bz Den) (bfact (2 * k)).
Lemma bgen_good : issome (gen 204 1 row2 [BigZ.of_Z Den]) = true. Proof. vm_compute. reflexivity. Qed.
Lemma clB_exact_check : (let l := bgen in forallb (fun i => relck1 (clB i) (cb_num l (S i)) (cb_den (S i))) (seq 0 101)) = true.
Proof. vm_compute. reflexivity. Qed.
(** |d| <= 5/6.29^(2k) *)
Definition crude (d : Z * Z) (k : nat) : bool :=
  BigZ.leb (BigZ.mul (absb (dnum d)) (BigZ.pow (bz 629) (bz (Z.of_nat (2 * k))))) (BigZ.mul (bz 5) (BigZ.mul (BigZ.pow (bz 100) (bz (Z.of_nat (2 * k)))) (dden d))).
Lemma clB_crude_check : forallb (fun i => crude (clB i) (S i)) (seq 101 101) = true.
Proof. vm_compute. reflexivity. Qed.
Lemma clB_nz_check : forallb (fun i => negb (Z.eqb (fst (clB i)) 0)) (seq 0 202) = true.
Proof. vm_compute. reflexivity. Qed.
Strategy expand [bgen]. Strategy 1000 [gen unsome].
Lemma bgen_ok b : is_bernoulli b -> is_bl b (IZR Den) bgen /\ length bgen = 205%nat.
Proof. intros B. exact (gen_all b Den 204 B bgen_good). Qed.
Global Opaque bgen.
Lemma cb_frac k : (k <= 101)%nat -> zr (cb_num bgen k) / zr (cb_den k) = bk k.
Proof.
  intros H. destruct (bgen_ok bern bern_is_bernoulli) as [P Q]. pose proof Den_pos as D. pose proof (INR_fact_neq_0 (2 * k)) as F.
  assert (E : nthZ (2 * k) bgen = IZR Den * bern (2 * k)) by (rewrite P by (rewrite Q; lia); reflexivity). unfold nthZ in E.
  unfold cb_num, cb_den, bk. rewrite BigZ.spec_mul, mult_IZR, BigZ.spec_of_Z, bfact_ok.
  replace ((-1) ^ k) with (if Nat.even k then 1 else -1) by (rewrite m1_odd, <- Nat.negb_even; destruct (Nat.even k); reflexivity).
  destruct (Nat.even k); [|rewrite BigZ.spec_opp, opp_IZR]; rewrite E; field; (split; [exact F|lra]).
Qed.
Lemma cb_den_pos k : 0 < zr (cb_den k).
Proof. unfold cb_den. rewrite BigZ.spec_mul, mult_IZR, BigZ.spec_of_Z, bfact_ok. apply Rmult_lt_0_compat; [apply Den_pos|apply INR_fact_lt_0]. Qed.
Lemma bt_exact k : (1 <= k <= 101)%nat -> Rabs (bt k - bk k) <= 60 / 10 ^ 18 * Rabs (bk k).
Proof.
  intros H. destruct k as [|i]; [lia|]. pose proof clB_exact_check as C. cbv zeta in C. rewrite forallb_forall in C. specialize (C i ltac:(apply in_seq; lia)).
  apply relck1_ok in C; [|apply cb_den_pos]. rewrite cb_frac in C by lia. exact C.
Qed.
Lemma crude_ok d k : crude d k = true -> Rabs (litR (fst d) (snd d)) <= 5 / (629 / 100) ^ (2 * k).
Proof.
  unfold crude, absb. rewrite BigZ.spec_leb, !BigZ.spec_mul, BigZ.spec_abs, !BigZ.spec_pow, !BigZ.spec_of_Z. intros H. apply Z.leb_le, IZR_le in H.
  rewrite !mult_IZR, abs_IZR, <- !pow_IZR in H. rewrite litR_frac. pose proof (dden_pos d) as Q.
  set (a := zr (dnum d)) in *. set (q := zr (dden d)) in *. clearbody a q. unfold Rdiv at 1 3. rewrite Rabs_mult, (Rabs_pos_eq (/ q)) by (left; apply Rinv_0_lt_compat; exact Q).
  rewrite Rpow_mult_distr, pow_inv by lra. assert (U : 0 < 629 ^ (2 * k)) by (apply pow_lt; lra). assert (V : 0 < 100 ^ (2 * k)) by (apply pow_lt; lra).
  set (u := 629 ^ (2 * k)) in *. set (v := 100 ^ (2 * k)) in *. clearbody u v. apply (Rmult_le_reg_r (q * u)); [nra|].
  replace (Rabs a * / q * (q * u)) with (Rabs a * u) by (field; lra). replace (5 / (u * / v) * (q * u)) with (5 * (v * q)) by (field; lra). exact H.
Qed.
Lemma pow45 k : (102 <= k)%nat -> 9 * (3025 / 10000) ^ k <= 24 / 10 ^ 17 * (45 / 100) ^ k.
Proof.
  intros H. replace (3025 / 10000) with (605 / 900 * (45 / 100)) by lra. rewrite Rpow_mult_distr. assert (P : 0 < (45 / 100) ^ k) by (apply pow_lt; lra).
  rewrite <- Rmult_assoc. apply Rmult_le_compat_r; [lra|].
  replace k with (102 + (k - 102))%nat by lia. rewrite pow_add. assert (Q : 0 <= (605 / 900) ^ (k - 102) <= 1) by (split; [apply pow_le; lra|rewrite <- (pow1 (k - 102)); apply pow_incr; lra]).
  assert (W : 9 * (605 / 900) ^ 102 <= 24 / 10 ^ 17).
  { replace (605 / 900) with (121 * / 180) by lra. rewrite Rpow_mult_distr, pow_inv by lra. assert (0 < 180 ^ 102) by (apply pow_lt; lra).
    apply (Rmult_le_reg_r (180 ^ 102 * 10 ^ 17)); [apply Rmult_lt_0_compat; lra|].
    replace (9 * (121 ^ 102 * / 180 ^ 102) * (180 ^ 102 * 10 ^ 17)) with (9 * 121 ^ 102 * 10 ^ 17) by (field; lra).
    replace (24 / 10 ^ 17 * (180 ^ 102 * 10 ^ 17)) with (24 * 180 ^ 102) by field.
    rewrite !pow_IZR, <- !mult_IZR. apply IZR_le. vm_compute. discriminate. }
  assert (0 <= (605 / 900) ^ 102) by (apply pow_le; lra). set (a := (605 / 900) ^ 102) in *. clearbody a. set (r := (605 / 900) ^ (k - 102)) in *. clearbody r. nra.
Qed.
Lemma bt_term k t : (1 <= k <= 202)%nat -> 0 <= t <= 34 / 10 -> Rabs ((bt k - bk k) * t ^ (2 * k)) <= 24 / 10 ^ 17 * (45 / 100) ^ k.
Proof.
  intros Hk Ht. pose proof PI_dec20 as HP. assert (P6 : 0 < (2 * PI) ^ (2 * k)) by (apply pow_lt; lra).
  assert (R1 : t ^ (2 * k) / (2 * PI) ^ (2 * k) <= (3025 / 10000) ^ k).
  { replace (3025 / 10000) with ((55 / 100) ^ 2) by field. rewrite <- pow_mult. apply (Rmult_le_reg_r ((2 * PI) ^ (2 * k))); [exact P6|]. unfold Rdiv at 1. rewrite Rmult_assoc, Rinv_l, Rmult_1_r by lra.
    rewrite <- Rpow_mult_distr. apply pow_incr. lra. }
  assert (T0 : 0 <= t ^ (2 * k)) by (apply pow_le; lra). rewrite Rabs_mult, (Rabs_pos_eq (t ^ _)) by exact T0.
  assert (B4 : Rabs (bk k) * t ^ (2 * k) <= 4 * (3025 / 10000) ^ k).
  { apply Rle_trans with (4 / (2 * PI) ^ (2 * k) * t ^ (2 * k)); [apply Rmult_le_compat_r; [exact T0|apply bk_bd]|]. unfold Rdiv in *. lra. }
  destruct (Nat.le_gt_cases k 101) as [L|L].
  - apply Rle_trans with (60 / 10 ^ 18 * Rabs (bk k) * t ^ (2 * k)); [apply Rmult_le_compat_r; [exact T0|apply bt_exact; lia]|].
    assert ((3025 / 10000) ^ k <= (45 / 100) ^ k) by (apply pow_incr; lra). lra.
  - apply Rle_trans with (9 * (3025 / 10000) ^ k); [|apply pow45; lia].
    assert (B5 : Rabs (bt k) * t ^ (2 * k) <= 5 * (3025 / 10000) ^ k).
    { assert (C : Rabs (bt k) <= 5 / (629 / 100) ^ (2 * k)).
      { destruct k as [|i]; [lia|]. apply crude_ok. pose proof clB_crude_check as C. rewrite forallb_forall in C. apply C, in_seq. lia. }
      assert (C2 : / (629 / 100) ^ (2 * k) <= / (2 * PI) ^ (2 * k)) by (apply Rinv_le_contravar; [exact P6|apply pow_incr; lra]).
      apply Rle_trans with (5 / (2 * PI) ^ (2 * k) * t ^ (2 * k)); [apply Rmult_le_compat_r; [exact T0|unfold Rdiv in *; lra]|]. unfold Rdiv in *. lra. }
    assert (D : Rabs (bt k - bk k) <= Rabs (bt k) + Rabs (bk k)) by (unfold Rminus; eapply Rle_trans; [apply Rabs_triang|rewrite Rabs_Ropp; lra]).
    apply Rle_trans with ((Rabs (bt k) + Rabs (bk k)) * t ^ (2 * k)); [apply Rmult_le_compat_r; assumption|]. lra.
Qed.
Lemma geo45 K : sum_f_R0 (fun k => (45 / 100) ^ S k) K <= 9 / 11.
Proof.
  assert (E : sum_f_R0 (fun k => (45 / 100) ^ S k) K = 9 / 11 - 20 / 11 * (45 / 100) ^ S (S K)).
  { induction K as [|K IH]; [cbn [sum_f_R0 pow]; field|]. rewrite tech5, IH. cbn [pow]. field. }
  rewrite E. assert (0 <= (45 / 100) ^ S (S K)) by (apply pow_le; lra). lra.
Qed.
Lemma sum_abs_le (f g : nat -> R) K : (forall k, (k <= K)%nat -> Rabs (f k) <= g k) -> Rabs (sum_f_R0 f K) <= sum_f_R0 g K.
Proof. intros H. eapply Rle_trans; [apply sum_f_R0_triangle|]. apply sum_Rle. exact H. Qed.
Lemma q406 : 4 * (55 / 100) ^ (2 * 203) / (1 - (55 / 100) ^ 2) <= 1 / 10 ^ 20.
Proof.
  assert (A : (55 / 100) ^ (2 * 203) <= / 10 ^ 21).
  { change (2 * 203)%nat with (100 + 306)%nat. rewrite pow_add. assert (Q : 0 <= (55 / 100) ^ 306 <= 1) by (split; [apply pow_le; lra|rewrite <- (pow1 306); apply pow_incr; lra]).
    assert (W : 0 <= (55 / 100) ^ 100 <= / 10 ^ 21).
    { split; [apply pow_le; lra|]. change 100%nat with (10 * 10)%nat. rewrite pow_mult. apply Rle_trans with ((2533 / 1000000) ^ 10); [apply pow_incr; split; [apply pow_le; lra|lra]|lra]. }
    set (a := (55 / 100) ^ 100) in *. clearbody a. set (r := (55 / 100) ^ 306) in *. clearbody r. assert (a * r <= a * 1) by (apply Rmult_le_compat_l; lra). lra. }
  assert (0 <= (55 / 100) ^ (2 * 203)) by (apply pow_le; lra). set (a := (55 / 100) ^ (2 * 203)) in *. clearbody a. lra.
Qed.
(** the table stands for (t/2) cot(t/2) within 2e-16 on the reduced range *)
Theorem pK_cot t : 0 < t <= 34 / 10 -> Rabs (pK bt 202 t - t * cotx t) <= 2 / 10 ^ 16.
Proof.
  intros Ht. pose proof PI_dec20 as HP.
  pose proof (cot_trunc t (55 / 100) 202 ltac:(lra) ltac:(lra) ltac:(lra)) as T. pose proof q406 as Q.
  replace (t * cotx t) with (t / 2 * (cos (t / 2) / sin (t / 2))) by (unfold cotx, Rdiv; ring).
  set (c := t / 2 * (cos (t / 2) / sin (t / 2))) in *. clearbody c. set (s := sum_f_R0 (fun k => bk k * t ^ (2 * k)) 202) in *.
  assert (D : Rabs (pK bt 202 t - s) <= 24 / 10 ^ 17 * (9 / 11)).
  { unfold pK, s. rewrite <- minus_sum. rewrite (decomp_sum _ 202) by lia. cbn [Nat.pred].
    replace (bt 0 * t ^ (2 * 0) - bk 0 * t ^ (2 * 0)) with 0 by (rewrite bk_0; unfold bt; ring). rewrite Rplus_0_l.
    eapply Rle_trans; [apply (sum_abs_le _ (fun k => (45 / 100) ^ S k * (24 / 10 ^ 17)))|].
    - intros k Hk. rewrite (Rmult_comm ((45 / 100) ^ S k)). replace (bt (S k) * t ^ (2 * S k) - bk (S k) * t ^ (2 * S k)) with ((bt (S k) - bk (S k)) * t ^ (2 * S k)) by ring. apply bt_term; [lia|lra].
    - rewrite <- scal_sum. apply Rmult_le_compat_l; [lra|]. apply geo45. }
  change (2 * 203)%nat with (2 * S 202)%nat in Q. replace (pK bt 202 t - c) with ((pK bt 202 t - s) + (s - c)) by ring. eapply Rle_trans; [apply Rabs_triang|].
  set (u := pK bt 202 t - s) in *. set (v := s - c) in *. clearbody u v. lra.
Qed.

(** ** the loops *)
Lemma opow_nat x k : 0 <= x -> (1 <= k)%Z -> opow (Some x) (Some (IZR k)) = Some (x ^ Z.to_nat k).
Proof.
  intros Hx Hk. unfold opow. destruct (Rlt_dec 0 x) as [P|P].
  - f_equal. rewrite <- Rpower_pow by exact P. f_equal. rewrite INR_IZR_INZ, Z2Nat.id by lia. reflexivity.
  - assert (x = 0) by lra. subst x. rewrite Flocq.Core.Raux.Zfloor_IZR. destruct (Req_EM_T (IZR k) (IZR k)) as [_|N]; [|contradiction]. destruct (Req_EM_T 0 0) as [_|N]; [|contradiction].
    assert (0 < IZR k) by (apply (IZR_lt 0); lia). destruct (Rlt_dec 0 (IZR k)); [|contradiction]. rewrite pow_i by lia. reflexivity.
Qed.
Lemma trefB i : (i < 202)%nat -> tref RD CL_B (Z.of_nat i) = Val (Some (bt (S i))).
Proof.
  intros H. destruct (tref_ok RD CL_B (Z.of_nat i)) as (d & E & ->); [change (length CL_B) with 202%nat; lia|]. rewrite Nat2Z.id in E. unfold bt, clB.
  rewrite (nth_error_nth CL_B i (0, 0)%Z E). reflexivity.
Qed.
Lemma bt_nz i : (i < 202)%nat -> bt (S i) <> 0.
Proof.
  intros H. pose proof clB_nz_check as C. rewrite forallb_forall in C. specialize (C i ltac:(apply in_seq; lia)). apply negb_true_iff, Z.eqb_neq in C. unfold bt, litR.
  destruct (0 <=? snd (clB i))%Z eqn:E.
  - apply not_0_IZR. apply Z.leb_le in E. intros Q. apply Z.mul_eq_0 in Q. destruct Q as [Q|Q]; [contradiction|]. pose proof (Z.pow_pos_nonneg 10 (snd (clB i)) ltac:(lia) E). lia.
  - apply Z.leb_gt in E. pose proof (Z.pow_pos_nonneg 10 (- snd (clB i)) ltac:(lia) ltac:(lia)).
    apply Rmult_integral_contrapositive. split; [apply not_0_IZR; exact C|apply Rinv_neq_0_compat, not_0_IZR; lia].
Qed.
Lemma ncal_loop_S (N : num) c k n (x2 xn sum : N) : ncal_loop N (S c) k n x2 xn sum =
  if (k <=? Z.of_nat (length CL_B))%Z then bind (tref N CL_B (k - 1)%Z) (fun b =>
    let sum' := add N sum (div N (mul N b xn) (ofZ N (2 * k + n + 1)%Z)) in
    if eqb N sum' sum then Val sum' else ncal_loop N c (k + 1)%Z n x2 (mul N xn x2) sum') else Val sum.
Proof. reflexivity. Qed.
(** sum_{i<c} of the terms from k on *)
Fixpoint tailB (c k n : nat) (x : R) : R := match c with O => 0 | S c' => bt k * x ^ (2 * k + n + 1) / INR (2 * k + n + 1) + tailB c' (S k) n x end.
Lemma ncal_loop_val x n : 0 < x -> forall c k s, (1 <= k)%nat -> (k + c = 203)%nat ->
  ncal_loop RD (S c) (Z.of_nat k) (Z.of_nat n) (Some (x * x)) (Some (x ^ (2 * k + n + 1))) (Some s) = Val (Some (s + tailB c k n x)).
Proof.
  intros Hx. induction c as [|c IH]; intros k s K1 K2.
  - cbn [ncal_loop tailB]. replace (Z.of_nat k <=? Z.of_nat (length CL_B))%Z with false by (symmetry; apply Z.leb_gt; change (length CL_B) with 202%nat; lia). rewrite Rplus_0_r. reflexivity.
  - rewrite ncal_loop_S. replace (Z.of_nat k <=? Z.of_nat (length CL_B))%Z with true by (symmetry; apply Z.leb_le; change (length CL_B) with 202%nat; lia).
    destruct k as [|k]; [lia|]. replace (Z.of_nat (S k) - 1)%Z with (Z.of_nat k) by lia. rewrite trefB by lia. cbn [bind]. cbv zeta.
    replace (2 * Z.of_nat (S k) + Z.of_nat n + 1)%Z with (Z.of_nat (2 * S k + n + 1)) by lia.
    assert (D : IZR (Z.of_nat (2 * S k + n + 1)) <> 0) by (apply not_0_IZR; lia).
    assert (E : add RD (Some s) (div RD (mul RD (Some (bt (S k))) (Some (x ^ (2 * S k + n + 1)))) (ofZ RD (Z.of_nat (2 * S k + n + 1)))) = Some (s + bt (S k) * x ^ (2 * S k + n + 1) / INR (2 * S k + n + 1))).
    { unfold RD. cbn [NumR add div mul ofZ car lift2]. rewrite odiv_some by exact D. cbn [lift2]. rewrite INR_IZR_INZ. reflexivity. }
    rewrite E. clear E. set (t := bt (S k) * x ^ (2 * S k + n + 1) / INR (2 * S k + n + 1)).
    assert (T : t <> 0).
    { unfold t. apply Rmult_integral_contrapositive. split; [apply Rmult_integral_contrapositive; split; [apply bt_nz; lia|apply pow_nonzero; lra]|apply Rinv_neq_0_compat, not_0_INR; lia]. }
    replace (eqb RD (Some (s + t)) (Some s)) with false by (unfold RD; cbn [NumR eqb car ocmp]; unfold Reqb; destruct (Req_EM_T (s + t) s); [exfalso; lra|reflexivity]).
    replace (mul RD (Some (x ^ (2 * S k + n + 1))) (Some (x * x))) with (Some (x ^ (2 * S (S k) + n + 1))).
    2: { unfold RD. cbn [NumR mul car lift2]. f_equal. replace (2 * S (S k) + n + 1)%nat with (2 * S k + n + 1 + 2)%nat by lia. rewrite (pow_add x (2 * S k + n + 1) 2). ring. }
    replace (Z.of_nat (S k) + 1)%Z with (Z.of_nat (S (S k))) by lia. rewrite IH by lia. f_equal. f_equal.
    change (tailB (S c) (S k) n x) with (t + tailB c (S (S k)) n x). ring.
Qed.
Lemma tailB_sum n x : forall c k, tailB (S c) (S k) n x = sum_f_R0 (fun i => bt (S k + i) * x ^ (2 * (S k + i) + n + 1) / INR (2 * (S k + i) + n + 1)) c.
Proof.
  induction c as [|c IH]; intros k.
  - cbn [tailB sum_f_R0]. rewrite Nat.add_0_r, Rplus_0_r. reflexivity.
  - change (tailB (S (S c)) (S k) n x) with (bt (S k) * x ^ (2 * S k + n + 1) / INR (2 * S k + n + 1) + tailB (S c) (S (S k)) n x). rewrite IH.
    rewrite (decomp_sum _ (S c)) by lia. cbn [Nat.pred]. rewrite Nat.add_0_r. f_equal. apply sum_eq. intros i Hi. replace (S k + S i)%nat with (S (S k) + i)%nat by lia. reflexivity.
Qed.
Lemma ncal_val n x : 0 <= x -> ncal RD (Z.of_nat n) (Some x) = Val (Some (Mn bt 202 n x / INR (n + 1))).
Proof.
  intros Hx. unfold ncal. replace (Z.of_nat n + 1)%Z with (Z.of_nat (n + 1)) by lia.
  replace (npow RD (Some x) (ofZ RD (Z.of_nat (n + 1)))) with (Some (x ^ (n + 1))).
  2: { unfold RD. cbn [NumR npow ofZ car]. rewrite opow_nat by (lra || lia). rewrite Nat2Z.id. reflexivity. }
  assert (D : IZR (Z.of_nat (n + 1)) <> 0) by (apply not_0_IZR; lia).
  assert (F : forall s, Val (div RD (add RD (div RD (Some (x ^ (n + 1))) (ofZ RD (Z.of_nat (n + 1)))) (Some s)) (ofZ RD (Z.of_nat (n + 1)))) = Val (Some ((x ^ (n + 1) / INR (n + 1) + s) / INR (n + 1)))).
  { intros s. unfold RD. cbn [NumR add div mul ofZ car lift2]. rewrite odiv_some by exact D. cbn [lift2]. rewrite odiv_some by exact D. rewrite INR_IZR_INZ. reflexivity. }
  assert (M2 : mul RD (Some (x ^ (n + 1))) (mul RD (Some x) (Some x)) = Some (x ^ (2 * 1 + n + 1))).
  { unfold RD. cbn [NumR mul car lift2]. f_equal. replace (2 * 1 + n + 1)%nat with (n + 1 + 2)%nat by lia. rewrite (pow_add x (n + 1) 2). ring. }
  rewrite M2. change (mul RD (Some x) (Some x)) with (Some (x * x)). change (lit RD 0 0) with (Some (litR 0 0)). rewrite litR_int. change (S (length CL_B)) with (S 202).
  assert (V : Mn bt 202 n x = x ^ (n + 1) / INR (n + 1) + tailB 202 1 n x).
  { rewrite (tailB_sum n x 201 0). unfold Mn. rewrite (decomp_sum _ 202) by lia. cbn [Nat.pred]. change (2 * 0)%nat with 0%nat. rewrite Nat.add_0_l. unfold bt at 1. rewrite Rmult_1_l. reflexivity. }
  destruct (Rle_lt_or_eq_dec 0 x Hx) as [P|<-].
  - change 1%Z with (Z.of_nat 1). rewrite (ncal_loop_val x n P 202 1 0 ltac:(lia) eq_refl). cbn [bind]. rewrite F, Rplus_0_l, <- V. reflexivity.
  - assert (L : ncal_loop RD (S 202) 1 (Z.of_nat n) (Some (0 * 0)) (Some (0 ^ (2 * 1 + n + 1))) (Some 0) = Val (Some 0)).
    { rewrite ncal_loop_S. change (1 <=? Z.of_nat (length CL_B))%Z with true. cbv iota. change (1 - 1)%Z with (Z.of_nat 0). rewrite trefB by lia. cbn [bind]. cbv zeta.
      assert (D2 : IZR (2 * 1 + Z.of_nat n + 1) <> 0) by (apply not_0_IZR; lia).
      assert (E : add RD (Some 0) (div RD (mul RD (Some (bt 1)) (Some (0 ^ (2 * 1 + n + 1)))) (ofZ RD (2 * 1 + Z.of_nat n + 1))) = Some 0).
      { unfold RD. cbn [NumR add div mul ofZ car lift2]. rewrite odiv_some by exact D2. cbn [lift2]. rewrite pow_i by lia. f_equal. unfold Rdiv. ring. }
      rewrite E. replace (eqb RD (Some 0) (Some 0)) with true; [reflexivity|]. unfold RD. cbn [NumR eqb car ocmp]. unfold Reqb. destruct (Req_EM_T 0 0); [reflexivity|contradiction]. }
    rewrite L. cbn [bind]. rewrite F, Mn_0, pow_i by lia. f_equal. f_equal. unfold Rdiv. ring.
Qed.

Lemma fact_IZR k z : Z.of_nat (fact k) = z -> INR (fact k) = IZR z.
Proof. intros <-. apply INR_IZR_INZ. Qed.
Ltac facts := rewrite ?(fact_IZR 0 1 eq_refl), ?(fact_IZR 1 1 eq_refl), ?(fact_IZR 2 2 eq_refl), ?(fact_IZR 3 6 eq_refl), ?(fact_IZR 4 24 eq_refl),
  ?(fact_IZR 5 120 eq_refl), ?(fact_IZR 6 720 eq_refl), ?(fact_IZR 7 5040 eq_refl), ?(fact_IZR 8 40320 eq_refl).
Lemma nsum_loop_S (N : num) c i n (x sum xn : N) : nsum_loop N (S c) i n x sum xn =
  if (i <=? (n - 3))%Z then bind (zref binomial (n - 2)%Z) (fun row => bind (zref row i) (fun b => bind (ncal N (n - 2 - i)%Z x) (fun nc =>
    nsum_loop N c (i + 1)%Z n x (add N sum (mul N (mul N (ofZ N b) xn) nc)) (mul N xn (opp N x))))) else Val (sum, xn).
Proof. reflexivity. Qed.
Lemma nsum_step c i n row b j x s w : (i <=? n - 3)%Z = true -> zref binomial (n - 2)%Z = Val row -> zref row i = Val b -> (n - 2 - i = Z.of_nat j)%Z -> 0 <= x ->
  nsum_loop RD (S c) i n (Some x) (Some s) (Some w) = nsum_loop RD c (i + 1)%Z n (Some x) (Some (s + IZR b * w * (Mn bt 202 j x / INR (j + 1)))) (Some (w * - x)).
Proof. intros H1 H2 H3 H4 Hx. rewrite nsum_loop_S, H1, H2. cbn [bind]. rewrite H3. cbn [bind]. rewrite H4, ncal_val by exact Hx. reflexivity. Qed.

Lemma nsum_7 x : 0 <= x -> nsum RD 7 (Some x) = Val (Some (120 * Hs bt 202 6 x)).
Proof.
  intros Hx. unfold nsum. change (Z.to_nat 7) with 7%nat. change (lit RD 0 0) with (Some (litR 0 0)). change (lit RD 1 0) with (Some (litR 1 0)). rewrite !litR_int.
  rewrite (nsum_step 6 0 7 [1; 5; 10; 10; 5; 1; 0; 0]%Z 1 5 x _ _ eq_refl eq_refl eq_refl eq_refl Hx). change (0 + 1)%Z with 1%Z.
  rewrite (nsum_step 5 1 7 [1; 5; 10; 10; 5; 1; 0; 0]%Z 5 4 x _ _ eq_refl eq_refl eq_refl eq_refl Hx). change (1 + 1)%Z with 2%Z.
  rewrite (nsum_step 4 2 7 [1; 5; 10; 10; 5; 1; 0; 0]%Z 10 3 x _ _ eq_refl eq_refl eq_refl eq_refl Hx). change (2 + 1)%Z with 3%Z.
  rewrite (nsum_step 3 3 7 [1; 5; 10; 10; 5; 1; 0; 0]%Z 10 2 x _ _ eq_refl eq_refl eq_refl eq_refl Hx). change (3 + 1)%Z with 4%Z.
  rewrite (nsum_step 2 4 7 [1; 5; 10; 10; 5; 1; 0; 0]%Z 5 1 x _ _ eq_refl eq_refl eq_refl eq_refl Hx). change (4 + 1)%Z with 5%Z.
  rewrite nsum_loop_S. change (5 <=? 7 - 3)%Z with false. cbv iota. cbn [bind fst snd]. change 0%Z with (Z.of_nat 0). rewrite ncal_val by exact Hx. cbn [bind].
  unfold RD. cbn [NumR add mul car lift2]. f_equal. f_equal. unfold Hs. cbn [sum_f_R0 Nat.sub Nat.add]. facts. simpl INR.
  set (a0 := Mn bt 202 0 x). clearbody a0.
  set (a1 := Mn bt 202 1 x). clearbody a1.
  set (a2 := Mn bt 202 2 x). clearbody a2.
  set (a3 := Mn bt 202 3 x). clearbody a3.
  set (a4 := Mn bt 202 4 x). clearbody a4.
  set (a5 := Mn bt 202 5 x). clearbody a5.
  clear Hx. field.
Qed.
Lemma nsum_8 x : 0 <= x -> nsum RD 8 (Some x) = Val (Some (720 * Hs bt 202 7 x)).
Proof.
  intros Hx. unfold nsum. change (Z.to_nat 8) with 8%nat. change (lit RD 0 0) with (Some (litR 0 0)). change (lit RD 1 0) with (Some (litR 1 0)). rewrite !litR_int.
  rewrite (nsum_step 7 0 8 [1; 6; 15; 20; 15; 6; 1; 0]%Z 1 6 x _ _ eq_refl eq_refl eq_refl eq_refl Hx). change (0 + 1)%Z with 1%Z.
  rewrite (nsum_step 6 1 8 [1; 6; 15; 20; 15; 6; 1; 0]%Z 6 5 x _ _ eq_refl eq_refl eq_refl eq_refl Hx). change (1 + 1)%Z with 2%Z.
  rewrite (nsum_step 5 2 8 [1; 6; 15; 20; 15; 6; 1; 0]%Z 15 4 x _ _ eq_refl eq_refl eq_refl eq_refl Hx). change (2 + 1)%Z with 3%Z.
  rewrite (nsum_step 4 3 8 [1; 6; 15; 20; 15; 6; 1; 0]%Z 20 3 x _ _ eq_refl eq_refl eq_refl eq_refl Hx). change (3 + 1)%Z with 4%Z.
  rewrite (nsum_step 3 4 8 [1; 6; 15; 20; 15; 6; 1; 0]%Z 15 2 x _ _ eq_refl eq_refl eq_refl eq_refl Hx). change (4 + 1)%Z with 5%Z.
  rewrite (nsum_step 2 5 8 [1; 6; 15; 20; 15; 6; 1; 0]%Z 6 1 x _ _ eq_refl eq_refl eq_refl eq_refl Hx). change (5 + 1)%Z with 6%Z.
  rewrite nsum_loop_S. change (6 <=? 8 - 3)%Z with false. cbv iota. cbn [bind fst snd]. change 0%Z with (Z.of_nat 0). rewrite ncal_val by exact Hx. cbn [bind].
  unfold RD. cbn [NumR add mul car lift2]. f_equal. f_equal. unfold Hs. cbn [sum_f_R0 Nat.sub Nat.add]. facts. simpl INR.
  set (a0 := Mn bt 202 0 x). clearbody a0.
  set (a1 := Mn bt 202 1 x). clearbody a1.
  set (a2 := Mn bt 202 2 x). clearbody a2.
  set (a3 := Mn bt 202 3 x). clearbody a3.
  set (a4 := Mn bt 202 4 x). clearbody a4.
  set (a5 := Mn bt 202 5 x). clearbody a5.
  set (a6 := Mn bt 202 6 x). clearbody a6.
  clear Hx. field.
Qed.
Lemma nsum_9 x : 0 <= x -> nsum RD 9 (Some x) = Val (Some (5040 * Hs bt 202 8 x)).
Proof.
  intros Hx. unfold nsum. change (Z.to_nat 9) with 9%nat. change (lit RD 0 0) with (Some (litR 0 0)). change (lit RD 1 0) with (Some (litR 1 0)). rewrite !litR_int.
  rewrite (nsum_step 8 0 9 [1; 7; 21; 35; 35; 21; 7; 1]%Z 1 7 x _ _ eq_refl eq_refl eq_refl eq_refl Hx). change (0 + 1)%Z with 1%Z.
  rewrite (nsum_step 7 1 9 [1; 7; 21; 35; 35; 21; 7; 1]%Z 7 6 x _ _ eq_refl eq_refl eq_refl eq_refl Hx). change (1 + 1)%Z with 2%Z.
  rewrite (nsum_step 6 2 9 [1; 7; 21; 35; 35; 21; 7; 1]%Z 21 5 x _ _ eq_refl eq_refl eq_refl eq_refl Hx). change (2 + 1)%Z with 3%Z.
  rewrite (nsum_step 5 3 9 [1; 7; 21; 35; 35; 21; 7; 1]%Z 35 4 x _ _ eq_refl eq_refl eq_refl eq_refl Hx). change (3 + 1)%Z with 4%Z.
  rewrite (nsum_step 4 4 9 [1; 7; 21; 35; 35; 21; 7; 1]%Z 35 3 x _ _ eq_refl eq_refl eq_refl eq_refl Hx). change (4 + 1)%Z with 5%Z.
  rewrite (nsum_step 3 5 9 [1; 7; 21; 35; 35; 21; 7; 1]%Z 21 2 x _ _ eq_refl eq_refl eq_refl eq_refl Hx). change (5 + 1)%Z with 6%Z.
  rewrite (nsum_step 2 6 9 [1; 7; 21; 35; 35; 21; 7; 1]%Z 7 1 x _ _ eq_refl eq_refl eq_refl eq_refl Hx). change (6 + 1)%Z with 7%Z.
  rewrite nsum_loop_S. change (7 <=? 9 - 3)%Z with false. cbv iota. cbn [bind fst snd]. change 0%Z with (Z.of_nat 0). rewrite ncal_val by exact Hx. cbn [bind].
  unfold RD. cbn [NumR add mul car lift2]. f_equal. f_equal. unfold Hs. cbn [sum_f_R0 Nat.sub Nat.add]. facts. simpl INR.
  set (a0 := Mn bt 202 0 x). clearbody a0.
  set (a1 := Mn bt 202 1 x). clearbody a1.
  set (a2 := Mn bt 202 2 x). clearbody a2.
  set (a3 := Mn bt 202 3 x). clearbody a3.
  set (a4 := Mn bt 202 4 x). clearbody a4.
  set (a5 := Mn bt 202 5 x). clearbody a5.
  set (a6 := Mn bt 202 6 x). clearbody a6.
  set (a7 := Mn bt 202 7 x). clearbody a7.
  clear Hx. field.
Qed.

(** ** the zeta polynomial *)
Definition zl (i : nat) : R := litR (fst (nth (i - 2) CL_ZETA (0, 0)%Z)) (snd (nth (i - 2) CL_ZETA (0, 0)%Z)).
Lemma clz_check : forallb (fun n => near (nth (n - 2) CL_ZETA (0, 0)%Z) (zeta_n n) (51 * 10 ^ 12)) [3; 5; 7; 9]%nat = true.
Proof. vm_compute. reflexivity. Qed.
Lemma zl_ok n : In n [3; 5; 7; 9]%nat -> Rabs (zl n - ReLi n 1) <= 52 / 10 ^ 18.
Proof.
  intros H. pose proof clz_check as C. rewrite forallb_forall in C. specialize (C n H). apply near_ok in C. fold (zl n) in C.
  assert (H2 : (2 <= n)%nat) by (cbn in H; lia). pose proof (zeta_n_ok n H2) as Z. replace (zl n - ReLi n 1) with ((zl n - IZR (zeta_n n) / IZR SC) + (IZR (zeta_n n) / IZR SC - ReLi n 1)) by ring.
  assert (E : IZR (51 * 10 ^ 12) / IZR SC = 51 / 10 ^ 18).
  { unfold SC. change (51 * 10 ^ 12)%Z with 51000000000000%Z. change (10 ^ 30)%Z with 1000000000000000000000000000000%Z. lra. }
  eapply Rle_trans; [apply Rabs_triang|]. rewrite E in C. lra.
Qed.
Lemma zlref i : (2 <= i <= 9)%nat -> tref RD CL_ZETA (Z.of_nat i - 2) = Val (Some (zl i)).
Proof.
  intros H. destruct (tref_ok RD CL_ZETA (Z.of_nat i - 2)) as (d & E & ->); [change (length CL_ZETA) with 8%nat; lia|]. unfold zl.
  replace (Z.to_nat (Z.of_nat i - 2)) with (i - 2)%nat in E by lia. rewrite (nth_error_nth CL_ZETA (i - 2) (0, 0)%Z E). reflexivity.
Qed.
Lemma div1_lit z : (z <> 0)%Z -> div RD (lit RD 1 0) (lit RD z 0) = Some (/ IZR z).
Proof. intros H. unfold RD. cbn [NumR div lit car]. rewrite !litR_int. rewrite odiv_some by (apply not_0_IZR; exact H). f_equal. unfold Rdiv. ring. Qed.
Lemma invf_0 : zref (inverse_factorial RD) 0 = Val (Some 1).
Proof. change (zref (inverse_factorial RD) 0) with (Val (lit RD 1 0)). change (lit RD 1 0) with (Some (litR 1 0)). rewrite litR_int. reflexivity. Qed.
Lemma invf_1 : zref (inverse_factorial RD) 1 = Val (Some 1).
Proof. change (zref (inverse_factorial RD) 1) with (Val (lit RD 1 0)). change (lit RD 1 0) with (Some (litR 1 0)). rewrite litR_int. reflexivity. Qed.
Lemma invf_2 : zref (inverse_factorial RD) 2 = Val (Some (/ 2)).
Proof. change (zref (inverse_factorial RD) 2) with (Val (div RD (lit RD 1 0) (lit RD 2 0))). rewrite div1_lit by discriminate. reflexivity. Qed.
Lemma invf_3 : zref (inverse_factorial RD) 3 = Val (Some (/ 6)).
Proof. change (zref (inverse_factorial RD) 3) with (Val (div RD (lit RD 1 0) (lit RD 6 0))). rewrite div1_lit by discriminate. reflexivity. Qed.
Lemma invf_4 : zref (inverse_factorial RD) 4 = Val (Some (/ 24)).
Proof. change (zref (inverse_factorial RD) 4) with (Val (div RD (lit RD 1 0) (lit RD 24 0))). rewrite div1_lit by discriminate. reflexivity. Qed.
Lemma invf_5 : zref (inverse_factorial RD) 5 = Val (Some (/ 120)).
Proof. change (zref (inverse_factorial RD) 5) with (Val (div RD (lit RD 1 0) (lit RD 120 0))). rewrite div1_lit by discriminate. reflexivity. Qed.
Lemma invf_6 : zref (inverse_factorial RD) 6 = Val (Some (/ 720)).
Proof. change (zref (inverse_factorial RD) 6) with (Val (div RD (lit RD 1 0) (lit RD 720 0))). rewrite div1_lit by discriminate. reflexivity. Qed.
Lemma invf_7 : zref (inverse_factorial RD) 7 = Val (Some (/ 5040)).
Proof. change (zref (inverse_factorial RD) 7) with (Val (div RD (lit RD 1 0) (lit RD 5040 0))). rewrite div1_lit by discriminate. reflexivity. Qed.
Lemma invf_8 : zref (inverse_factorial RD) 8 = Val (Some (/ 40320)).
Proof. change (zref (inverse_factorial RD) 8) with (Val (div RD (lit RD 1 0) (lit RD 40320 0))). rewrite div1_lit by discriminate. reflexivity. Qed.
Lemma pcal_loop_S (N : num) c i n (x2 sum : N) : pcal_loop N (S c) i n x2 sum =
  if (i <=? n)%Z then bind (tref N CL_ZETA (i - 2)%Z) (fun z => bind (zref (inverse_factorial N) (n - i)%Z) (fun f =>
    pcal_loop N c (i + 2)%Z n x2 (add N (mul N x2 sum) (mul N (mul N (if is_even (Z.quot (n - 1) 2 + Z.quot (i - 1) 2)%Z then lit N 1 0 else lit N (-1) 0) z) f)))) else Val sum.
Proof. reflexivity. Qed.
Lemma pcal_step c (i : nat) n j f x2 s : (Z.of_nat i <=? n)%Z = true -> (2 <= i <= 9)%nat -> (n - Z.of_nat i = j)%Z -> zref (inverse_factorial RD) j = Val (Some f) ->
  pcal_loop RD (S c) (Z.of_nat i) n (Some x2) (Some s) =
  pcal_loop RD c (Z.of_nat i + 2)%Z n (Some x2) (Some (x2 * s + (if is_even (Z.quot (n - 1) 2 + Z.quot (Z.of_nat i - 1) 2)%Z then 1 else -1) * zl i * f)).
Proof.
  intros H1 H2 H3 H4. rewrite pcal_loop_S, H1, zlref by exact H2. cbn [bind]. rewrite H3, H4. cbn [bind]. f_equal. unfold RD. cbn [NumR add mul lit car]. rewrite !litR_int.
  destruct (is_even _); reflexivity.
Qed.
Lemma pcal_7 x : pcal RD 7 (Some x) = Val (Some ((1) * zl 3 * x ^ 4 / 24 + (-1) * zl 5 * x ^ 2 / 2 + (1) * zl 7 * x ^ 0 / 1)).
Proof.
  unfold pcal. change (Z.to_nat 7) with 7%nat. change (mul RD (Some x) (Some x)) with (Some (x * x)). change (lit RD 0 0) with (Some (litR 0 0)). rewrite litR_int. change 3%Z with (Z.of_nat 3).
  rewrite (pcal_step 6 3 7 4 (/ 24) (x * x) _ eq_refl ltac:(lia) eq_refl invf_4). change (is_even ((7 - 1) ÷ 2 + (Z.of_nat 3 - 1) ÷ 2)) with true. cbv iota. change (Z.of_nat 3 + 2)%Z with (Z.of_nat 5).
  rewrite (pcal_step 5 5 7 2 (/ 2) (x * x) _ eq_refl ltac:(lia) eq_refl invf_2). change (is_even ((7 - 1) ÷ 2 + (Z.of_nat 5 - 1) ÷ 2)) with false. cbv iota. change (Z.of_nat 5 + 2)%Z with (Z.of_nat 7).
  rewrite (pcal_step 4 7 7 0 1 (x * x) _ eq_refl ltac:(lia) eq_refl invf_0). change (is_even ((7 - 1) ÷ 2 + (Z.of_nat 7 - 1) ÷ 2)) with true. cbv iota. change (Z.of_nat 7 + 2)%Z with (Z.of_nat 9).
  rewrite pcal_loop_S. change (Z.of_nat 9 <=? 7)%Z with false. cbv iota. cbn [bind]. change (is_even 7) with false. cbv iota.
  f_equal. f_equal. field.
Qed.
Lemma pcal_8 x : pcal RD 8 (Some x) = Val (Some ((1) * zl 3 * x ^ 5 / 120 + (-1) * zl 5 * x ^ 3 / 6 + (1) * zl 7 * x ^ 1 / 1)).
Proof.
  unfold pcal. change (Z.to_nat 8) with 8%nat. change (mul RD (Some x) (Some x)) with (Some (x * x)). change (lit RD 0 0) with (Some (litR 0 0)). rewrite litR_int. change 3%Z with (Z.of_nat 3).
  rewrite (pcal_step 7 3 8 5 (/ 120) (x * x) _ eq_refl ltac:(lia) eq_refl invf_5). change (is_even ((8 - 1) ÷ 2 + (Z.of_nat 3 - 1) ÷ 2)) with true. cbv iota. change (Z.of_nat 3 + 2)%Z with (Z.of_nat 5).
  rewrite (pcal_step 6 5 8 3 (/ 6) (x * x) _ eq_refl ltac:(lia) eq_refl invf_3). change (is_even ((8 - 1) ÷ 2 + (Z.of_nat 5 - 1) ÷ 2)) with false. cbv iota. change (Z.of_nat 5 + 2)%Z with (Z.of_nat 7).
  rewrite (pcal_step 5 7 8 1 1 (x * x) _ eq_refl ltac:(lia) eq_refl invf_1). change (is_even ((8 - 1) ÷ 2 + (Z.of_nat 7 - 1) ÷ 2)) with true. cbv iota. change (Z.of_nat 7 + 2)%Z with (Z.of_nat 9).
  rewrite pcal_loop_S. change (Z.of_nat 9 <=? 8)%Z with false. cbv iota. cbn [bind]. change (is_even 8) with true. cbv iota.
  unfold RD. cbn [NumR mul car lift2].
  f_equal. f_equal. field.
Qed.
Lemma pcal_9 x : pcal RD 9 (Some x) = Val (Some ((-1) * zl 3 * x ^ 6 / 720 + (1) * zl 5 * x ^ 4 / 24 + (-1) * zl 7 * x ^ 2 / 2 + (1) * zl 9 * x ^ 0 / 1)).
Proof.
  unfold pcal. change (Z.to_nat 9) with 9%nat. change (mul RD (Some x) (Some x)) with (Some (x * x)). change (lit RD 0 0) with (Some (litR 0 0)). rewrite litR_int. change 3%Z with (Z.of_nat 3).
  rewrite (pcal_step 8 3 9 6 (/ 720) (x * x) _ eq_refl ltac:(lia) eq_refl invf_6). change (is_even ((9 - 1) ÷ 2 + (Z.of_nat 3 - 1) ÷ 2)) with false. cbv iota. change (Z.of_nat 3 + 2)%Z with (Z.of_nat 5).
  rewrite (pcal_step 7 5 9 4 (/ 24) (x * x) _ eq_refl ltac:(lia) eq_refl invf_4). change (is_even ((9 - 1) ÷ 2 + (Z.of_nat 5 - 1) ÷ 2)) with true. cbv iota. change (Z.of_nat 5 + 2)%Z with (Z.of_nat 7).
  rewrite (pcal_step 6 7 9 2 (/ 2) (x * x) _ eq_refl ltac:(lia) eq_refl invf_2). change (is_even ((9 - 1) ÷ 2 + (Z.of_nat 7 - 1) ÷ 2)) with false. cbv iota. change (Z.of_nat 7 + 2)%Z with (Z.of_nat 9).
  rewrite (pcal_step 5 9 9 0 1 (x * x) _ eq_refl ltac:(lia) eq_refl invf_0). change (is_even ((9 - 1) ÷ 2 + (Z.of_nat 9 - 1) ÷ 2)) with true. cbv iota. change (Z.of_nat 9 + 2)%Z with (Z.of_nat 11).
  rewrite pcal_loop_S. change (Z.of_nat 11 <=? 9)%Z with false. cbv iota. cbn [bind]. change (is_even 9) with false. cbv iota.
  f_equal. f_equal. field.
Qed.
(** the branch 7 <= n <= 9 of Cl, Cl.cpp:298-318 *)
Definition mid (N : num) (n : Z) (sgn x : N) : out N :=
  bind (zref (inverse_factorial N) (n - 1)%Z) (fun f1 =>
  let term1 := if eqb N x (lit N 0 0) then lit N 0 0
               else mul N (mul N (mul N (if is_even (Z.quot (n + 1) 2) then lit N 1 0 else lit N (-1) 0) (npow N x (ofZ N (n - 1)%Z))) f1) (nlog N (mul N (lit N 2 0) (nsin N (div N x (lit N 2 0))))) in
  bind (pcal N n x) (fun pc => bind (zref (inverse_factorial N) (n - 2)%Z) (fun f2 => bind (nsum N n x) (fun ns =>
  let term2 := sub N pc (mul N (mul N (if is_even (Z.quot n 2) then lit N 1 0 else lit N (-1) 0) f2) ns) in
  Val (mul N sgn (add N term1 term2)))))).
Lemma Cl_mid_eq (N : num) n x : (7 <= n <= 9)%Z -> Cl N n x = (let '(sgn, x) := Cl_range_reduce N n x in
   if (is_even n && eqb N x (lit N 0 0))%bool then Val x else if (is_even n && eqb N x (Cl_PI N))%bool then Val (lit N 0 0) else mid N n sgn x).
Proof. intros H. assert (C : n = 7%Z \/ n = 8%Z \/ n = 9%Z) by lia. destruct C as [-> | [-> | ->]]; reflexivity. Qed.
(** the first term of Eq. (2.13) *)
Lemma term1_val n m sg f r : (1 <= m)%nat -> 0 <= r < 2 * PI -> (n - 1 = Z.of_nat m)%Z ->
  (if eqb RD (Some r) (lit RD 0 0) then lit RD 0 0
   else mul RD (mul RD (mul RD (Some sg) (npow RD (Some r) (ofZ RD (n - 1)%Z))) (Some f)) (nlog RD (mul RD (lit RD 2 0) (nsin RD (div RD (Some r) (lit RD 2 0))))))
  = Some (sg * r ^ m * f * ln (Rabs (2 * sin (r / 2)))).
Proof.
  intros Hm Hr E. unfold RD. cbn [NumR eqb lit car ocmp]. rewrite !litR_int. unfold Reqb. destruct (Req_EM_T r 0) as [-> |N].
  - f_equal. rewrite pow_i by lia. ring.
  - assert (S0 : 0 < sin (r / 2)) by (apply sin_gt_0; lra). cbn [NumR npow ofZ car nsin div]. rewrite odiv_some by lra. cbn [NumR lift1 mul lift2 nlog npow ofZ car]. unfold olog.
    destruct (Rlt_dec 0 (2 * sin (r / 2))) as [P|P]; [|exfalso; lra]. rewrite E, opow_nat by (lra || lia). rewrite Nat2Z.id. cbn [lift2]. rewrite Rabs_pos_eq by lra. reflexivity.
Qed.
Lemma lit1_sg (b : bool) : (if b then lit RD 1 0 else lit RD (-1) 0) = Some (if b then 1 else -1).
Proof. unfold RD. cbn [NumR lit car]. rewrite !litR_int. destruct b; reflexivity. Qed.
Lemma Acl_at0' : Acl 6 0 = - ReLi 7 1 /\ Acl 7 0 = 0 /\ Acl 8 0 = ReLi 9 1.
Proof.
  split; [|split].
  - change 6%nat with (S (S (2 * 2))). rewrite Acl_even. change (S (S (S (2 * 2)))) with 7%nat. rewrite cosser_0 by lia. cbn [pow]. ring.
  - change 7%nat with (S (2 * 3)). rewrite Acl_odd, Fourier.sinser_0. ring.
  - change 8%nat with (S (S (2 * 3))). rewrite Acl_even. change (S (S (S (2 * 3)))) with 9%nat. rewrite cosser_0 by lia. cbn [pow]. ring.
Qed.

Lemma pow_34 r k : 0 <= r < 34 / 10 -> 0 <= r ^ k <= (34 / 10) ^ k.
Proof. intros H. split; [apply pow_le; lra|apply pow_incr; lra]. Qed.
Lemma dz_mul z c : Rabs z <= 52 / 10 ^ 18 -> 0 <= c -> Rabs (z * c) <= 52 / 10 ^ 18 * c.
Proof. intros H C. rewrite Rabs_mult, (Rabs_pos_eq c) by exact C. apply Rmult_le_compat_r; assumption. Qed.
Lemma V_bd m r : 0 <= r < 34 / 10 -> Rabs (V213 bt 202 (S m) r - Acl (S m) r) <= 2 / 10 ^ 16 * Hm (S m) / INR (fact (S m)) * r ^ S m.
Proof.
  intros H. pose proof PI_dec20. apply (V213_err bt 202 (2 / 10 ^ 16) (34 / 10)); [lra|lra| |exact H]. intros t Ht. apply pK_cot. lra.
Qed.
Definition W7 (r : R) : R := (1) * r ^ 6 * / 720 * ln (Rabs (2 * sin (r / 2))) + ((1) * zl 3 * r ^ 4 / 24 + (-1) * zl 5 * r ^ 2 / 2 + (1) * zl 7 * r ^ 0 / 1 - (-1) * / 120 * (120 * Hs bt 202 6 r)).
Lemma mid_7 sg r : 0 <= r < 2 * PI -> mid RD 7 (Some sg) (Some r) = Val (Some (sg * W7 r)).
Proof.
  intros Hr. unfold mid. change (7 - 1)%Z with 6%Z. change (7 - 2)%Z with 5%Z. rewrite invf_6. cbn [bind]. rewrite pcal_7. cbn [bind]. rewrite invf_5. cbn [bind]. rewrite nsum_7 by lra. cbn [bind].
  rewrite !lit1_sg. pose proof (term1_val 7 6 (if is_even ((7 + 1) ÷ 2) then 1 else -1) (/ 720) r ltac:(lia) Hr eq_refl) as T. change (7 - 1)%Z with 6%Z in T. cbv zeta. rewrite T.
  change (is_even ((7 + 1) ÷ 2)) with true. change (is_even (7 ÷ 2)) with false. reflexivity.
Qed.
Lemma W7_err r : 0 <= r < 34 / 10 -> Rabs (W7 r - Clspec 7 r) <= 2 / 10 ^ 15.
Proof.
  intros Hr. pose proof (V_bd 5 r Hr) as V. destruct Acl_at0 as (A0 & A1 & A2 & A3 & A4 & A5). destruct Acl_at0' as (A6 & A7 & A8).
  assert (EA : Acl 6 r = (-1) * Clspec 7 r) by (unfold Acl; cbn [Nat.div2 pow]; ring).
  assert (EW : W7 r - Clspec 7 r = (-1) * (V213 bt 202 6 r - Acl 6 r) + ((1) * ((zl 3 - ReLi 3 1) * (r ^ 4 / 24)) + (-1) * ((zl 5 - ReLi 5 1) * (r ^ 2 / 2)) + (1) * ((zl 7 - ReLi 7 1) * (r ^ 0 / 1)))).
  { rewrite EA. unfold W7, V213, Js. cbn [tp]. rewrite A0, A1, A2, A3, A4, A5, A6. facts. generalize (Hs bt 202 6 r) (ln (Rabs (2 * sin (r / 2)))) (Clspec 7 r). intros h l c.
    generalize (zl 3) (ReLi 3 1); intros z3 y3. generalize (zl 5) (ReLi 5 1); intros z5 y5. generalize (zl 7) (ReLi 7 1); intros z7 y7. field. }
  rewrite EW. clear EW EA A0 A1 A2 A3 A4 A5 A6 A7 A8. set (v := V213 bt 202 6 r - Acl 6 r) in *. clearbody v.
  pose proof (zl_ok 3 ltac:(cbn; tauto)) as Z3. set (z3 := zl 3 - ReLi 3 1) in *. clearbody z3. pose proof (zl_ok 5 ltac:(cbn; tauto)) as Z5. set (z5 := zl 5 - ReLi 5 1) in *. clearbody z5. pose proof (zl_ok 7 ltac:(cbn; tauto)) as Z7. set (z7 := zl 7 - ReLi 7 1) in *. clearbody z7.
  rewrite (fact_IZR 6 720 eq_refl) in V. pose proof (pow_34 r 6 Hr) as PM.
  assert (HH : Hm 6 <= 272 / 100) by (cbn [Hm]; simpl INR; lra). assert (H0 : 0 <= Hm 6) by (cbn [Hm]; simpl INR; lra). set (h := Hm 6) in *. clearbody h.
  assert (V2 : Rabs v <= 117 / 10 ^ 17).
  { eapply Rle_trans; [exact V|]. apply Rle_trans with (2 / 10 ^ 16 * (272 / 100) / 720 * (34 / 10) ^ 6); [|lra]. apply Rmult_le_compat; [|lra| |lra]; unfold Rdiv; [|lra]. repeat apply Rmult_le_pos; lra. }
  pose proof (pow_34 r 4 Hr) as P3. assert (D3 : Rabs (z3 * (r ^ 4 / 24)) <= 52 / 10 ^ 18 * ((34 / 10) ^ 4 / 24)) by (eapply Rle_trans; [apply dz_mul; [exact Z3|lra]|lra]).
  set (d3 := z3 * (r ^ 4 / 24)) in *. clearbody d3. apply Rabs_le_between in D3. clear P3.
  pose proof (pow_34 r 2 Hr) as P5. assert (D5 : Rabs (z5 * (r ^ 2 / 2)) <= 52 / 10 ^ 18 * ((34 / 10) ^ 2 / 2)) by (eapply Rle_trans; [apply dz_mul; [exact Z5|lra]|lra]).
  set (d5 := z5 * (r ^ 2 / 2)) in *. clearbody d5. apply Rabs_le_between in D5. clear P5.
  pose proof (pow_34 r 0 Hr) as P7. assert (D7 : Rabs (z7 * (r ^ 0 / 1)) <= 52 / 10 ^ 18 * ((34 / 10) ^ 0 / 1)) by (eapply Rle_trans; [apply dz_mul; [exact Z7|lra]|lra]).
  set (d7 := z7 * (r ^ 0 / 1)) in *. clearbody d7. apply Rabs_le_between in D7. clear P7.
  apply Rabs_le_between in V2. apply Rabs_le. lra.
Qed.
Definition W8 (r : R) : R := (1) * r ^ 7 * / 5040 * ln (Rabs (2 * sin (r / 2))) + ((1) * zl 3 * r ^ 5 / 120 + (-1) * zl 5 * r ^ 3 / 6 + (1) * zl 7 * r ^ 1 / 1 - (1) * / 720 * (720 * Hs bt 202 7 r)).
Lemma mid_8 sg r : 0 <= r < 2 * PI -> mid RD 8 (Some sg) (Some r) = Val (Some (sg * W8 r)).
Proof.
  intros Hr. unfold mid. change (8 - 1)%Z with 7%Z. change (8 - 2)%Z with 6%Z. rewrite invf_7. cbn [bind]. rewrite pcal_8. cbn [bind]. rewrite invf_6. cbn [bind]. rewrite nsum_8 by lra. cbn [bind].
  rewrite !lit1_sg. pose proof (term1_val 8 7 (if is_even ((8 + 1) ÷ 2) then 1 else -1) (/ 5040) r ltac:(lia) Hr eq_refl) as T. change (8 - 1)%Z with 7%Z in T. cbv zeta. rewrite T.
  change (is_even ((8 + 1) ÷ 2)) with true. change (is_even (8 ÷ 2)) with true. reflexivity.
Qed.
Lemma W8_err r : 0 <= r < 34 / 10 -> Rabs (W8 r - Clspec 8 r) <= 2 / 10 ^ 15.
Proof.
  intros Hr. pose proof (V_bd 6 r Hr) as V. destruct Acl_at0 as (A0 & A1 & A2 & A3 & A4 & A5). destruct Acl_at0' as (A6 & A7 & A8).
  assert (EA : Acl 7 r = (-1) * Clspec 8 r) by (unfold Acl; cbn [Nat.div2 pow]; ring).
  assert (EW : W8 r - Clspec 8 r = (-1) * (V213 bt 202 7 r - Acl 7 r) + ((1) * ((zl 3 - ReLi 3 1) * (r ^ 5 / 120)) + (-1) * ((zl 5 - ReLi 5 1) * (r ^ 3 / 6)) + (1) * ((zl 7 - ReLi 7 1) * (r ^ 1 / 1)))).
  { rewrite EA. unfold W8, V213, Js. cbn [tp]. rewrite A0, A1, A2, A3, A4, A5, A6, A7. facts. generalize (Hs bt 202 7 r) (ln (Rabs (2 * sin (r / 2)))) (Clspec 8 r). intros h l c.
    generalize (zl 3) (ReLi 3 1); intros z3 y3. generalize (zl 5) (ReLi 5 1); intros z5 y5. generalize (zl 7) (ReLi 7 1); intros z7 y7. field. }
  rewrite EW. clear EW EA A0 A1 A2 A3 A4 A5 A6 A7 A8. set (v := V213 bt 202 7 r - Acl 7 r) in *. clearbody v.
  pose proof (zl_ok 3 ltac:(cbn; tauto)) as Z3. set (z3 := zl 3 - ReLi 3 1) in *. clearbody z3. pose proof (zl_ok 5 ltac:(cbn; tauto)) as Z5. set (z5 := zl 5 - ReLi 5 1) in *. clearbody z5. pose proof (zl_ok 7 ltac:(cbn; tauto)) as Z7. set (z7 := zl 7 - ReLi 7 1) in *. clearbody z7.
  rewrite (fact_IZR 7 5040 eq_refl) in V. pose proof (pow_34 r 7 Hr) as PM.
  assert (HH : Hm 7 <= 272 / 100) by (cbn [Hm]; simpl INR; lra). assert (H0 : 0 <= Hm 7) by (cbn [Hm]; simpl INR; lra). set (h := Hm 7) in *. clearbody h.
  assert (V2 : Rabs v <= 57 / 10 ^ 17).
  { eapply Rle_trans; [exact V|]. apply Rle_trans with (2 / 10 ^ 16 * (272 / 100) / 5040 * (34 / 10) ^ 7); [|lra]. apply Rmult_le_compat; [|lra| |lra]; unfold Rdiv; [|lra]. repeat apply Rmult_le_pos; lra. }
  pose proof (pow_34 r 5 Hr) as P3. assert (D3 : Rabs (z3 * (r ^ 5 / 120)) <= 52 / 10 ^ 18 * ((34 / 10) ^ 5 / 120)) by (eapply Rle_trans; [apply dz_mul; [exact Z3|lra]|lra]).
  set (d3 := z3 * (r ^ 5 / 120)) in *. clearbody d3. apply Rabs_le_between in D3. clear P3.
  pose proof (pow_34 r 3 Hr) as P5. assert (D5 : Rabs (z5 * (r ^ 3 / 6)) <= 52 / 10 ^ 18 * ((34 / 10) ^ 3 / 6)) by (eapply Rle_trans; [apply dz_mul; [exact Z5|lra]|lra]).
  set (d5 := z5 * (r ^ 3 / 6)) in *. clearbody d5. apply Rabs_le_between in D5. clear P5.
  pose proof (pow_34 r 1 Hr) as P7. assert (D7 : Rabs (z7 * (r ^ 1 / 1)) <= 52 / 10 ^ 18 * ((34 / 10) ^ 1 / 1)) by (eapply Rle_trans; [apply dz_mul; [exact Z7|lra]|lra]).
  set (d7 := z7 * (r ^ 1 / 1)) in *. clearbody d7. apply Rabs_le_between in D7. clear P7.
  apply Rabs_le_between in V2. apply Rabs_le. lra.
Qed.
Definition W9 (r : R) : R := (-1) * r ^ 8 * / 40320 * ln (Rabs (2 * sin (r / 2))) + ((-1) * zl 3 * r ^ 6 / 720 + (1) * zl 5 * r ^ 4 / 24 + (-1) * zl 7 * r ^ 2 / 2 + (1) * zl 9 * r ^ 0 / 1 - (1) * / 5040 * (5040 * Hs bt 202 8 r)).
Lemma mid_9 sg r : 0 <= r < 2 * PI -> mid RD 9 (Some sg) (Some r) = Val (Some (sg * W9 r)).
Proof.
  intros Hr. unfold mid. change (9 - 1)%Z with 8%Z. change (9 - 2)%Z with 7%Z. rewrite invf_8. cbn [bind]. rewrite pcal_9. cbn [bind]. rewrite invf_7. cbn [bind]. rewrite nsum_9 by lra. cbn [bind].
  rewrite !lit1_sg. pose proof (term1_val 9 8 (if is_even ((9 + 1) ÷ 2) then 1 else -1) (/ 40320) r ltac:(lia) Hr eq_refl) as T. change (9 - 1)%Z with 8%Z in T. cbv zeta. rewrite T.
  change (is_even ((9 + 1) ÷ 2)) with false. change (is_even (9 ÷ 2)) with true. reflexivity.
Qed.
Lemma W9_err r : 0 <= r < 34 / 10 -> Rabs (W9 r - Clspec 9 r) <= 2 / 10 ^ 15.
Proof.
  intros Hr. pose proof (V_bd 7 r Hr) as V. destruct Acl_at0 as (A0 & A1 & A2 & A3 & A4 & A5). destruct Acl_at0' as (A6 & A7 & A8).
  assert (EA : Acl 8 r = (1) * Clspec 9 r) by (unfold Acl; cbn [Nat.div2 pow]; ring).
  assert (EW : W9 r - Clspec 9 r = (1) * (V213 bt 202 8 r - Acl 8 r) + ((-1) * ((zl 3 - ReLi 3 1) * (r ^ 6 / 720)) + (1) * ((zl 5 - ReLi 5 1) * (r ^ 4 / 24)) + (-1) * ((zl 7 - ReLi 7 1) * (r ^ 2 / 2)) + (1) * ((zl 9 - ReLi 9 1) * (r ^ 0 / 1)))).
  { rewrite EA. unfold W9, V213, Js. cbn [tp]. rewrite A0, A1, A2, A3, A4, A5, A6, A7, A8. facts. generalize (Hs bt 202 8 r) (ln (Rabs (2 * sin (r / 2)))) (Clspec 9 r). intros h l c.
    generalize (zl 3) (ReLi 3 1); intros z3 y3. generalize (zl 5) (ReLi 5 1); intros z5 y5. generalize (zl 7) (ReLi 7 1); intros z7 y7. generalize (zl 9) (ReLi 9 1); intros z9 y9. field. }
  rewrite EW. clear EW EA A0 A1 A2 A3 A4 A5 A6 A7 A8. set (v := V213 bt 202 8 r - Acl 8 r) in *. clearbody v.
  pose proof (zl_ok 3 ltac:(cbn; tauto)) as Z3. set (z3 := zl 3 - ReLi 3 1) in *. clearbody z3. pose proof (zl_ok 5 ltac:(cbn; tauto)) as Z5. set (z5 := zl 5 - ReLi 5 1) in *. clearbody z5. pose proof (zl_ok 7 ltac:(cbn; tauto)) as Z7. set (z7 := zl 7 - ReLi 7 1) in *. clearbody z7. pose proof (zl_ok 9 ltac:(cbn; tauto)) as Z9. set (z9 := zl 9 - ReLi 9 1) in *. clearbody z9.
  rewrite (fact_IZR 8 40320 eq_refl) in V. pose proof (pow_34 r 8 Hr) as PM.
  assert (HH : Hm 8 <= 272 / 100) by (cbn [Hm]; simpl INR; lra). assert (H0 : 0 <= Hm 8) by (cbn [Hm]; simpl INR; lra). set (h := Hm 8) in *. clearbody h.
  assert (V2 : Rabs v <= 25 / 10 ^ 17).
  { eapply Rle_trans; [exact V|]. apply Rle_trans with (2 / 10 ^ 16 * (272 / 100) / 40320 * (34 / 10) ^ 8); [|lra]. apply Rmult_le_compat; [|lra| |lra]; unfold Rdiv; [|lra]. repeat apply Rmult_le_pos; lra. }
  pose proof (pow_34 r 6 Hr) as P3. assert (D3 : Rabs (z3 * (r ^ 6 / 720)) <= 52 / 10 ^ 18 * ((34 / 10) ^ 6 / 720)) by (eapply Rle_trans; [apply dz_mul; [exact Z3|lra]|lra]).
  set (d3 := z3 * (r ^ 6 / 720)) in *. clearbody d3. apply Rabs_le_between in D3. clear P3.
  pose proof (pow_34 r 4 Hr) as P5. assert (D5 : Rabs (z5 * (r ^ 4 / 24)) <= 52 / 10 ^ 18 * ((34 / 10) ^ 4 / 24)) by (eapply Rle_trans; [apply dz_mul; [exact Z5|lra]|lra]).
  set (d5 := z5 * (r ^ 4 / 24)) in *. clearbody d5. apply Rabs_le_between in D5. clear P5.
  pose proof (pow_34 r 2 Hr) as P7. assert (D7 : Rabs (z7 * (r ^ 2 / 2)) <= 52 / 10 ^ 18 * ((34 / 10) ^ 2 / 2)) by (eapply Rle_trans; [apply dz_mul; [exact Z7|lra]|lra]).
  set (d7 := z7 * (r ^ 2 / 2)) in *. clearbody d7. apply Rabs_le_between in D7. clear P7.
  pose proof (pow_34 r 0 Hr) as P9. assert (D9 : Rabs (z9 * (r ^ 0 / 1)) <= 52 / 10 ^ 18 * ((34 / 10) ^ 0 / 1)) by (eapply Rle_trans; [apply dz_mul; [exact Z9|lra]|lra]).
  set (d9 := z9 * (r ^ 0 / 1)) in *. clearbody d9. apply Rabs_le_between in D9. clear P9.
  apply Rabs_le_between in V2. apply Rabs_le. lra.
Qed.

(** ** assembled *)
Definition Wn (n : Z) : R -> R := if (n =? 7)%Z then W7 else if (n =? 8)%Z then W8 else W9.
Lemma mid_val n sg r : (7 <= n <= 9)%Z -> 0 <= r < 2 * PI -> mid RD n (Some sg) (Some r) = Val (Some (sg * Wn n r)).
Proof. intros H Hr. assert (C : n = 7%Z \/ n = 8%Z \/ n = 9%Z) by lia. destruct C as [-> | [-> | ->]]; [apply mid_7|apply mid_8|apply mid_9]; exact Hr. Qed.
Lemma Wn_err n r : (7 <= n <= 9)%Z -> 0 <= r < 34 / 10 -> Rabs (Wn n r - Clspec (Z.to_nat n) r) <= 2 / 10 ^ 15.
Proof. intros H Hr. assert (C : n = 7%Z \/ n = 8%Z \/ n = 9%Z) by lia. destruct C as [-> | [-> | ->]]; [apply W7_err|apply W8_err|apply W9_err]; exact Hr. Qed.
Theorem Cl_mid_accuracy n x : (7 <= n <= 9)%Z -> ~ in_gap Pd Sd x -> exists v x', Cl RD n (Some x) = Val (Some v) /\ Rabs (v - Clspec (Z.to_nat n) x') <= 2 / 10 ^ 15 /\
  Rabs (x' - x) <= 6 / 10 ^ 19 * Rabs x + 1 / 10 ^ 19 /\ (Rabs x <= Pd -> x' = x).
Proof.
  intros Hn NG. pose proof (redc_rng Pd Sd HPd HSPd x NG) as R1. pose proof PI_dec20 as HP. pose proof Pd_err as HE.
  assert (Hr : 0 <= redc Pd Sd x < 34 / 10) by lra. clear R1.
  assert (X : exists v, Cl RD n (Some x) = Val (Some v) /\ Rabs (v - Clspec (Z.to_nat n) (redx Pd Sd x)) <= 2 / 10 ^ 15).
  2: { destruct X as (v & X1 & X2). exists v, (redx Pd Sd x). split; [exact X1|]. split; [exact X2|]. split; [apply redx_d|apply (redx_small Pd Sd HPd)]. }
  rewrite Cl_redx'. rewrite Cl_mid_eq by exact Hn. unfold Cl_range_reduce. rewrite is_even_nat by lia. unfold RD. rewrite flip_R, noflip_R. fold RD.
  pose proof (Wn_err n (redc Pd Sd x) Hn Hr) as A. set (r := redc Pd Sd x) in *.
  destruct (Nat.even (Z.to_nat n)) eqn:E; cbv beta iota; cbn [andb].
  - replace (eqb RD (Some r) (lit RD 0 0)) with (Reqb r 0) by (unfold RD; cbn [NumR eqb lit car ocmp]; rewrite litR_int; reflexivity). replace (eqb RD (Some r) (Cl_PI RD)) with (Reqb r Pd) by (unfold RD; rewrite ClPI_R; reflexivity). unfold Reqb.
    destruct (Req_EM_T r 0) as [Z|Z].
    { eexists. split; [reflexivity|]. rewrite Z. unfold Clspec. rewrite E, Fourier.sinser_0, Rmult_0_r, Rminus_0_r, Rabs_R0. lra. }
    destruct (Req_EM_T r Pd) as [Y|Y].
    { eexists. split; [reflexivity|]. rewrite Y. unfold Rminus. rewrite Rplus_0_l, Rabs_Ropp, Rabs_mult, flipsg_abs, Rmult_1_l. eapply Rle_trans; [apply Clspec_even_Pd; [lia|exact E]|]. lra. }
    eexists. split; [apply mid_val; [exact Hn|lra]|]. rewrite <- Rmult_minus_distr_l, Rabs_mult, flipsg_abs, Rmult_1_l. exact A.
  - eexists. split; [apply mid_val; [exact Hn|lra]|]. rewrite litR_int, !Rmult_1_l. exact A.
Qed.

