(** * Properties, part G: harmonic numbers (C08) *)
From Coq Require Import Reals Lra Lia Psatz ZArith List Bool.
From Coquelicot Require Import Coquelicot.
From Interval Require Import Tactic.
From Flocq Require Import Core IEEE754.BinarySingleNaN.
From Verif Require Import Num Outcome Model_Tables Model_Zeta NumR Eval_R NumB NumB_facts Libm Ieee Proof_Int Cheb Harmonic Properties_F.
Import ListNotations.
Open Scope R_scope.

Lemma ln_le_sub1 x : 0 < x -> ln x <= x - 1.
Proof. intros Hx. pose proof (exp_ineq1_le (ln x)) as E. rewrite exp_ln in E by exact Hx. lra. Qed.
(** ** C08 *)
(** 1 + 1/2 + ... + 1/n, n >= 1 *)
Definition harm (n : nat) : R := sum_f_R0 (fun k => / INR (S k)) (n - 1).
Lemma H_harm n : (1 <= n)%nat -> H n = harm n.
Proof.
  unfold harm. induction n as [|n IH]; [lia|]. intros _. destruct n as [|n]; [cbn; lra|]. change (H (S (S n))) with (H (S n) + / INR (S (S n))). rewrite IH by lia.
  replace (S (S n) - 1)%nat with (S n) by lia. replace (S n - 1)%nat with n by lia. reflexivity.
Qed.
Lemma Pf_pz l : forall k t, Pf l k t = t ^ k * pz l (t * t).
Proof. induction l as [|c l IH]; intros k t; cbn [Pf pz]; [ring|]. rewrite IH. cbn [pow]. ring. Qed.
Lemma dig_poly t : Pf cs 2 t / W = t * t * plit DIGAMMA_C (t * t).
Proof.
  rewrite (plit_pz 19) by reflexivity. change (zs_of 19 DIGAMMA_C) with cs. rewrite Pf_pz. replace (IZR (10 ^ 19)) with W by exact (pow_IZR 10 19). cbn [pow]. pose proof W_pos. field. lra.
Qed.
Definition lits (i : nat) : R := litp (nth i DIGAMMA_C (0, 0)%Z).
Lemma plit_unroll x : plit DIGAMMA_C x = lits 0 + x * (lits 1 + x * (lits 2 + x * (lits 3 + x * (lits 4 + x * (lits 5 + x * (lits 6 + x * (lits 7))))))).
Proof. unfold lits, DIGAMMA_C. cbn [plit nth]. ring. Qed.
Lemma gam_lit : litR 57721566490153286 (-17) = gam.
Proof. unfold gam. rewrite litR_dec. f_equal. f_equal. exact (eq_sym (pow_IZR 10 17)). Qed.

Theorem C08_harmonic_nonpositive (N : num) n : (n <= 0)%Z -> harmonic N n = Val (nan N).
Proof. intros H. unfold harmonic. destruct (Z.leb_spec n 0); [reflexivity|lia]. Qed.
(** *** exact arithmetic *)
Section R8.
Variable ep : R.
Lemma hsum_R c : forall k s, (0 < k)%nat -> harmonic_sum (NumR ep) c (Z.of_nat k) (Some s) = Some (s + (H (k - 1 + c) - H (k - 1))).
Proof.
  induction c as [|c IH]; intros k s Hk; cbn [harmonic_sum].
  - rewrite Nat.add_0_r. f_equal. ring.
  - cbn [add div lit ofZ NumR]. rewrite litR_int, odiv_some by (apply IZR_neq; lia). cbn [lift2]. replace (Z.of_nat k + 1)%Z with (Z.of_nat (S k)) by lia. rewrite IH by lia.
    f_equal. replace (S k - 1 + c)%nat with (k - 1 + S c)%nat by lia. replace (S k - 1)%nat with (S (k - 1)) by lia. cbn [H]. replace (S (k - 1)) with k by lia. rewrite <- INR_IZR_INZ. unfold Rdiv. ring.
Qed.
Theorem C08_harmonic_small_exact (n : nat) : (1 <= n < 20)%nat -> harmonic (NumR ep) (Z.of_nat n) = Val (Some (harm n)).
Proof.
  intros Hn. unfold harmonic. destruct (Z.leb_spec (Z.of_nat n) 0); [lia|]. destruct (Z.ltb_spec (Z.of_nat n) 20); [|lia]. f_equal.
  cbn [lit NumR]. rewrite litR_int. etransitivity; [exact (hsum_R (Z.to_nat (Z.of_nat n - 1)) 2 1 ltac:(lia))|]. f_equal. replace (2 - 1 + Z.to_nat (Z.of_nat n - 1))%nat with n by lia. rewrite <- H_harm by lia. cbn. lra.
Qed.
Lemma digamma_R m : (7 <= m)%Z -> digamma (NumR ep) m = Some (psia (IZR m)).
Proof.
  intros Hm. unfold digamma. destruct (Z.leb_spec m 0); [lia|]. destruct (Z.ltb_spec m 7); [lia|]. cbn [add sub mul div lit ofZ nlog NumR]. unfold dc. cbn [nth_error DIGAMMA_C fst snd lit NumR].
  assert (P : 0 < IZR m) by (apply (IZR_lt 0); lia). rewrite litR_int, odiv_some, olog_some by lra. cbn [lift2]. f_equal. unfold psia. rewrite dig_poly, plit_unroll, litR_half.
  unfold lits. cbn [nth DIGAMMA_C]. unfold litp. cbn [fst snd]. rewrite litR_int. unfold Rdiv. rewrite Rmult_1_l. ring.
Qed.
Theorem C08_harmonic_large_exact (n : nat) : (20 <= n)%nat -> (Z.of_nat n < INT64_MAX)%Z -> exists v, harmonic (NumR ep) (Z.of_nat n) = Val (Some v) /\ Rabs (v - harm n) <= 6 / 10 ^ 18.
Proof.
  intros Hn I. unfold harmonic. destruct (Z.leb_spec (Z.of_nat n) 0); [lia|]. destruct (Z.ltb_spec (Z.of_nat n) 20); [lia|]. rewrite i64_ok by (unfold INT64_MIN; lia). cbn [bind].
  rewrite digamma_R by lia. cbn [lit add NumR lift2]. eexists. split; [reflexivity|]. rewrite gam_lit, plus_IZR, <- INR_IZR_INZ, <- H_harm by lia. pose proof (harmonic_asymp n Hn) as A.
  assert (0 < / INR n) by (apply Rinv_0_lt_compat, lt_0_INR; lia). lra.
Qed.
End R8.
(** *** IEEE double *)
Lemma ln1p_small e u : Rabs e <= u -> 0 < u <= / 2 -> Rabs (ln (1 + e)) <= 2 * u.
Proof.
  intros H1 H2. apply Rabs_le_between in H1. apply Rabs_le. split.
  - replace (ln (1 + e)) with (- ln (/ (1 + e))) by (rewrite ln_Rinv by lra; ring). apply Ropp_le_contravar.
    apply Rle_trans with (/ (1 + e) - 1). { pose proof (ln_le_sub1 (/ (1 + e)) ltac:(apply Rinv_0_lt_compat; lra)). lra. }
    replace (/ (1 + e) - 1) with (- e / (1 + e)) by (field; lra). apply (Rmult_le_reg_r (1 + e)); [lra|]. unfold Rdiv. rewrite Rmult_assoc, Rinv_l, Rmult_1_r by lra. nra.
  - pose proof (ln_le_sub1 (1 + e) ltac:(lra)). lra.
Qed.
Section B8.
Variable L : libm 53 1024.
Definition dat (f : f64) : Z * Z := match f with B754_finite s m e _ => (cond_Zopp s (Zpos m), e) | _ => (0, 0)%Z end.
Lemma dat_ok f : fst (dat f) <> 0%Z -> is_finite f = true /\ B2R f = IZR (fst (dat f)) * bpow radix2 (snd (dat f)).
Proof. destruct f; cbn [dat fst snd]; intros HH; try (elim HH; reflexivity). split; reflexivity. Qed.
(** 19! H_n *)
Fixpoint hz (n : nat) : Z := match n with O => 0 | S m => hz m + 121645100408832000 / Z.of_nat n end%Z.
Definition hck (f : f64) (n : nat) : bool := let d := dat f in
  ((0 <? fst d) && (snd d <=? 0) && (2 ^ 53 * Z.abs (fst d * 121645100408832000 - hz n * 2 ^ (- snd d)) <=? 2 * (hz n * 2 ^ (- snd d))))%Z%bool.
Lemma hck_all : forallb (fun n => hck (harmonic_sum (B64 L) (n - 1) 2 (lit (B64 L) 1 0)) n) (seq 1 19) = true.
Proof. vm_compute. reflexivity. Qed.
Lemma hz_ok n : (n <= 19)%nat -> IZR (hz n) = 121645100408832000 * H n.
Proof.
  intros HH. assert (C : forallb (fun k => (Z.of_nat k * (121645100408832000 / Z.of_nat k) =? 121645100408832000)%Z) (seq 1 19) = true) by (vm_compute; reflexivity). rewrite forallb_forall in C.
  induction n as [|n IH]; [cbn; lra|]. cbn [hz H]. specialize (C (S n) ltac:(apply in_seq; lia)). apply Z.eqb_eq, (f_equal IZR) in C. rewrite mult_IZR, <- INR_IZR_INZ in C. rewrite plus_IZR, IH by lia.
  assert (P : 0 < INR (S n)) by (apply lt_0_INR; lia). set (q := IZR (_ / _)) in *. assert (q = 121645100408832000 * / INR (S n)) by (apply (Rmult_eq_reg_l (INR (S n))); [rewrite C; field; lra|lra]). lra.
Qed.
Lemma H_pos n : (1 <= n)%nat -> 0 < H n.
Proof. intros HH. induction HH; [cbn; lra|]. cbn [H]. assert (0 < / INR (S m)) by (apply Rinv_0_lt_compat, lt_0_INR; lia). lra. Qed.
Theorem C08_harmonic_small (n : nat) : (1 <= n < 20)%nat -> exists f, harmonic (B64 L) (Z.of_nat n) = Val f /\ rel64 2 f (harm n).
Proof.
  intros Hn. unfold harmonic. destruct (Z.leb_spec (Z.of_nat n) 0) as [Q0|Q0]; [lia|]. destruct (Z.ltb_spec (Z.of_nat n) 20) as [Q1|Q1]; [|lia]. eexists. split; [reflexivity|].
  replace (Z.to_nat (Z.of_nat n - 1)) with (n - 1)%nat by lia. pose proof hck_all as C. rewrite forallb_forall in C. specialize (C n ltac:(apply in_seq; lia)).
  set (f := harmonic_sum _ _ _ _) in *. clearbody f. unfold hck in C. apply andb_prop in C. destruct C as [C C3]. apply andb_prop in C. destruct C as [C1 C2]. apply Z.ltb_lt in C1. apply Z.leb_le in C2. apply Z.leb_le, IZR_le in C3.
  destruct (dat_ok f ltac:(lia)) as [F E]. split; [exact F|]. rewrite E. set (a := fst (dat f)) in *. set (e := snd (dat f)) in *. clearbody a e.
  rewrite !mult_IZR, abs_IZR, minus_IZR, !mult_IZR, hz_ok in C3 by lia. rewrite <- H_harm by lia. pose proof (H_pos n ltac:(lia)) as HP. rewrite (Rabs_pos_eq (H n)) by lra.
  replace (IZR (2 ^ 53)) with (2 ^ 53) in C3 by exact (pow_IZR 2 53). assert (BE : bpow radix2 e = / IZR (2 ^ (- e))) by (replace e with (- (- e))%Z at 1 by lia; rewrite bpow_opp, <- (IZR_Zpower radix2) by lia; reflexivity).
  rewrite BE. assert (P2 : 0 < IZR (2 ^ (- e))) by (apply (IZR_lt 0), Z.pow_pos_nonneg; lia). set (p := IZR (2 ^ (- e))) in *. clearbody p. set (K := 121645100408832000) in *. assert (KP : 0 < K) by (unfold K; lra). clearbody K.
  assert (W2 : 0 < 2 ^ 53) by lra. set (w := 2 ^ 53) in *. clearbody w.
  replace (IZR a * / p - H n) with ((IZR a * K - K * H n * p) * / (p * K)) by (field; lra). rewrite Rabs_mult, (Rabs_pos_eq (/ _)) by (left; apply Rinv_0_lt_compat; nra).
  apply (Rmult_le_reg_r (p * K * w)); [apply Rmult_lt_0_compat; nra|]. replace (Rabs (IZR a * K - K * H n * p) * / (p * K) * (p * K * w)) with (w * Rabs (IZR a * K - K * H n * p)) by (field; lra).
  replace (2 * / w * H n * (p * K * w)) with (2 * (K * H n * p)) by (field; lra). exact C3.
Qed.
Hypothesis HL : libm_ok (Hp := Hp53) (He := He53) L.
Lemma ap_litp i M : Rabs (lits i) <= M -> M <= 1 -> (i < 8)%nat -> ap (dc (B64 L) i) (lits i) (u64 * M + s64).
Proof.
  intros H1 H2 H3. unfold dc. destruct (nth_error DIGAMMA_C i) as [d|] eqn:E; [|apply nth_error_None in E; cbn in E; lia].
  unfold lits in *. rewrite (nth_error_nth _ _ _ E) in *. unfold litp in *. apply ap_lit; [exact H1|]. lra.
Qed.
Lemma lits_le i : (i < 8)%nat -> Rabs (lits i) <= 45 / 100.
Proof.
  intros Hi. do 8 (destruct i as [|i]; [unfold lits, litp; cbn [nth DIGAMMA_C fst snd]; rewrite litR_dec; match goal with |- context[IZR (10 ^ ?k)] => let v := eval vm_compute in (10 ^ k)%Z in change (10 ^ k)%Z with v end; apply Rabs_le; lra|]). lia.
Qed.
Lemma u64_small : 0 < u64 <= / 10 ^ 15. Proof. rewrite u64_val. split; lra. Qed.
Lemma s64_u : 0 < s64 <= u64 / 10 ^ 9.
Proof. pose proof s64_small. rewrite u64_val. split; lra. Qed.
(** one Horner step *)
Lemma horner_step t2 T r R0 i : ap t2 T (u64 / 20) -> 0 <= T <= 23 / 10000 -> ap r R0 u64 -> Rabs R0 <= 46 / 100 -> (i < 8)%nat ->
  ap (add (B64 L) (dc (B64 L) i) (mul (B64 L) t2 r)) (lits i + T * R0) u64 /\ Rabs (lits i + T * R0) <= 46 / 100.
Proof.
  intros A T0 B R1 Hi. pose proof u64_small as U. pose proof s64_u as S. pose proof (lits_le i Hi) as LI.
  assert (M : ap (mul (B64 L) t2 r) (T * R0) (u64 * (4 / 100))).
  { eapply ap_weak; [apply (ap_mul L t2 r T R0 (u64 / 20) u64 (23 / 10000) (46 / 100) (/ 100)); try assumption; [rewrite Rabs_pos_eq; lra|nra|lra]|]. nra. }
  assert (TR : Rabs (T * R0) <= 11 / 10000) by (rewrite Rabs_mult, (Rabs_pos_eq T) by lra; pose proof (Rabs_pos R0); nra).
  pose proof (Rabs_triang (lits i) (T * R0)). split; [|lra].
  eapply ap_weak; [apply (ap_add L _ _ _ _ (u64 * (45 / 100) + s64) (u64 * (4 / 100)) (47 / 100)); [apply ap_litp; [exact LI|lra|exact Hi]|exact M|lra|lra]|]. lra.
Qed.
Theorem C08_harmonic_large (n : nat) : (20 <= n)%nat -> (Z.of_nat n < INT64_MAX)%Z -> exists f, harmonic (B64 L) (Z.of_nat n) = Val f /\ rel64 8 f (harm n).
Proof.
  intros Hn I. unfold harmonic. destruct (Z.leb_spec (Z.of_nat n) 0) as [Q0|Q0]; [lia|]. destruct (Z.ltb_spec (Z.of_nat n) 20) as [Q1|Q1]; [lia|]. rewrite i64_ok by (unfold INT64_MIN; lia). cbn [bind].
  eexists. split; [reflexivity|]. set (m := (Z.of_nat n + 1)%Z). unfold digamma. destruct (Z.leb_spec m 0) as [Q2|Q2]; [lia|]. destruct (Z.ltb_spec m 7) as [Q3|Q3]; [lia|].
  pose proof u64_small as U. pose proof s64_u as S.
  assert (M0 : 21 <= IZR m <= 2 ^ 63). { split; [apply (IZR_le 21); lia|]. unfold INT64_MAX in I. apply Rle_trans with (IZR (2 ^ 63)); [apply IZR_le; lia|right; symmetry; exact (pow_IZR 2 63)]. }
  set (x := IZR m) in *.
  (* the integer argument as a double *)
  set (mf := ofZ (B64 L) m). assert (OM : okf mf x). { apply ofZ_okf. fold x. rewrite Rabs_pos_eq by lra. pose proof big64_ge. assert (2 ^ 63 <= 2 ^ 200) by (apply Rle_pow; [lra|lia]). lra. }
  assert (EM : Rabs (B2R mf - x) <= u64 * x). { rewrite (proj2 OM). replace (u64 * x) with (u64 * Rabs x) by (rewrite (Rabs_pos_eq x) by lra; reflexivity). apply rnd64_err_norm. rewrite Rabs_pos_eq by lra. eapply Rle_trans; [apply (bpow_le radix2 (-1022) 0); lia|]. cbn. lra. }
  destruct OM as [FM _]. apply Rabs_le_between in EM. set (y := B2R mf) in *. assert (YP : 20 <= y <= 2 ^ 64) by nra.
  (* t = 1/m *)
  set (one := lit (B64 L) 1 0). assert (O1 : is_finite one = true /\ B2R one = 1).
  { assert (o : okf one 1). { rewrite <- (litR_int 1). apply lit_okf. rewrite litR_int, Rabs_pos_eq by lra. pose proof big64_ge. lra. } split; [exact (proj1 o)|]. apply (okf_exact _ _ o), (gf_int 1). lia. }
  set (tf := div (B64 L) one mf). assert (IX : 0 < / x <= / 21) by (split; [apply Rinv_0_lt_compat; lra|apply Rinv_le_contravar; lra]). assert (IY : 0 < / y <= / 20) by (split; [apply Rinv_0_lt_compat; lra|apply Rinv_le_contravar; lra]).
  assert (IXY : Rabs (/ y - / x) <= u64 / 19).
  { replace (/ y - / x) with ((x - y) * / x * / y) by (field; lra). rewrite !Rabs_mult, (Rabs_pos_eq (/ x)), (Rabs_pos_eq (/ y)) by lra. assert (Rabs (x - y) <= u64 * x) by (apply Rabs_le; lra).
    apply Rle_trans with (u64 * x * / x * / y); [apply Rmult_le_compat_r; [lra|]; apply Rmult_le_compat_r; lra|]. rewrite (Rmult_assoc u64), Rinv_r by lra. nra. }
  assert (AT : ap tf (/ x) (u64 / 8)).
  { eapply ap_weak; [apply (ap_okf tf (/ x) (/ y) (u64 / 19) (/ 20)); [|exact IXY|rewrite Rabs_pos_eq; lra]|lra].
    unfold tf. replace (/ y) with (B2R one / B2R mf) by (rewrite (proj2 O1); unfold Rdiv; apply Rmult_1_l). apply div_okf; [exact (proj1 O1)|fold y; lra|]. rewrite (proj2 O1). fold y. unfold Rdiv. rewrite Rmult_1_l, Rabs_pos_eq by lra. pose proof big64_ge. lra. }
  set (T := / x * / x). assert (TB : 0 <= T <= 23 / 10000) by (unfold T; nra).
  set (t2 := mul (B64 L) tf tf). assert (AT2 : ap t2 T (u64 / 20)).
  { eapply ap_weak; [apply (ap_mul L tf tf (/ x) (/ x) (u64 / 8) (u64 / 8) (/ 20) (/ 20) (/ 390)); try assumption; try (rewrite Rabs_pos_eq; lra); nra|]. nra. }
  (* polynomial *)
  assert (P7 : ap (dc (B64 L) 7) (lits 7) u64 /\ Rabs (lits 7) <= 46 / 100). { pose proof (lits_le 7 ltac:(lia)). split; [eapply ap_weak; [apply (ap_litp 7 (45 / 100)); [assumption|lra|lia]|lra]|lra]. }
  pose proof (fun r R0 i H => horner_step t2 T r R0 i AT2 TB (proj1 H) (proj2 H)) as ST.
  pose proof (ST _ _ 6%nat P7 ltac:(lia)) as P6. pose proof (ST _ _ 5%nat P6 ltac:(lia)) as P5. pose proof (ST _ _ 4%nat P5 ltac:(lia)) as P4. pose proof (ST _ _ 3%nat P4 ltac:(lia)) as P3.
  pose proof (ST _ _ 2%nat P3 ltac:(lia)) as P2. pose proof (ST _ _ 1%nat P2 ltac:(lia)) as P1. pose proof (ST _ _ 0%nat P1 ltac:(lia)) as [P0 PB]. clear P1 P2 P3 P4 P5 P6 P7 ST.
  rewrite <- plit_unroll in P0, PB. set (pf := add (B64 L) (dc (B64 L) 0) _) in P0 |- *. clearbody pf.
  assert (AQ : ap (mul (B64 L) t2 pf) (T * plit DIGAMMA_C T) (u64 / 20)).
  { eapply ap_weak; [apply (ap_mul L t2 pf T (plit DIGAMMA_C T) (u64 / 20) u64 (23 / 10000) (46 / 100) (/ 100)); try assumption; [rewrite Rabs_pos_eq; lra|nra|lra]|]. nra. }
  set (q := T * plit DIGAMMA_C T) in *. assert (QB : Rabs q <= 11 / 10000) by (unfold q; rewrite Rabs_mult, (Rabs_pos_eq T) by lra; pose proof (Rabs_pos (plit DIGAMMA_C T)); nra).
  (* half t *)
  assert (AH : ap (mul (B64 L) (lit (B64 L) 5 (-1)) tf) (/ 2 * / x) (u64 / 5)).
  { pose proof (ap_lit L 5 (-1) (/ 2)) as LH. rewrite litR_half in LH. specialize (LH ltac:(rewrite Rabs_pos_eq; lra) ltac:(lra)).
    eapply ap_weak; [apply (ap_mul L _ tf (/ 2) (/ x) (u64 * / 2 + s64) (u64 / 8) (/ 2) (/ 20) (/ 39)); [exact LH|exact AT|rewrite Rabs_pos_eq; lra|rewrite Rabs_pos_eq; lra|nra|lra]|]. nra. }
  (* log *)
  destruct (log_acc _ _ _ _ L HL mf FM ltac:(fold y; lra)) as [FL CL]. fold y in CL. change (m_log _ _ L mf) with (nlog (B64 L) mf) in FL, CL.
  assert (C1 : bpow radix2 (2 - 53) = 4 * u64) by (unfold u64; change (2 - 53)%Z with (2 + -53)%Z; rewrite bpow_plus; f_equal). assert (C2 : bpow radix2 (3 - 1024 - 53) <= u64 / 10 ^ 9).
  { eapply Rle_trans; [apply (bpow_le radix2 _ (-200)); lia|]. rewrite u64_val. replace (bpow radix2 (-200)) with (/ 2 ^ 200) by exact (eq_sym (bpow_neg 200)). lra. } rewrite C1 in CL.
  assert (LX : 3 <= ln x). { apply Rle_trans with (ln 21); [interval|]. apply ln_le; lra. }
  assert (LX2 : ln x <= 45). { apply Rle_trans with (ln (2 ^ 63)); [apply ln_le; lra|]. interval. }
  assert (LY : Rabs (ln y - ln x) <= 2 * u64).
  { rewrite <- ln_div by lra. replace (y / x) with (1 + (y - x) / x) by (field; lra). assert (E : Rabs ((y - x) / x) <= u64) by (unfold Rdiv; rewrite Rabs_mult, (Rabs_pos_eq (/ x)) by lra; apply (Rmult_le_reg_r x); [lra|]; rewrite Rmult_assoc, Rinv_l, Rmult_1_r by lra; apply Rabs_le; lra).
    apply ln1p_small; lra. }
  assert (LP : 0 < ln y) by (apply Rabs_le_between in LY; lra). rewrite (Rabs_pos_eq (ln y)) in CL by lra.
  assert (AL : ap (nlog (B64 L) mf) (ln x) (u64 * (4 * ln x + 21 / 10))).
  { split; [exact FL|]. replace (B2R (nlog (B64 L) mf) - ln x) with ((B2R (nlog (B64 L) mf) - ln y) + (ln y - ln x)) by ring. eapply Rle_trans; [apply Rabs_triang|]. apply Rabs_le_between in LY. assert (4 * u64 * ln y <= 4 * u64 * (ln x + 2 * u64)) by (apply Rmult_le_compat_l; lra).
    assert (Rabs (ln y - ln x) <= 2 * u64) by (apply Rabs_le; lra). nra. }
  set (l := ln x) in *.
  assert (A0 : ap (add (B64 L) (lit (B64 L) 0 0) (nlog (B64 L) mf)) l (u64 * (4 * l + 21 / 10))).
  { split.
    - assert (O : okf (add (B64 L) (lit (B64 L) 0 0) (nlog (B64 L) mf)) (B2R (lit (B64 L) 0 0) + B2R (nlog (B64 L) mf))).
      { apply add_okf; [reflexivity|exact FL|]. change (B2R (lit (B64 L) 0 0)) with 0. rewrite Rplus_0_l. pose proof (ap_abs _ _ _ AL) as AA. pose proof big64_ge. rewrite (Rabs_pos_eq l) in AA by lra. nra. }
      exact (proj1 O).
    - assert (O : okf (add (B64 L) (lit (B64 L) 0 0) (nlog (B64 L) mf)) (B2R (lit (B64 L) 0 0) + B2R (nlog (B64 L) mf))).
      { apply add_okf; [reflexivity|exact FL|]. change (B2R (lit (B64 L) 0 0)) with 0. rewrite Rplus_0_l. pose proof (ap_abs _ _ _ AL) as AA. pose proof big64_ge. rewrite (Rabs_pos_eq l) in AA by lra. nra. }
      rewrite (okf_exact _ _ O) by (change (B2R (lit (B64 L) 0 0)) with 0; rewrite Rplus_0_l; apply generic_format_B2R).
      change (B2R (lit (B64 L) 0 0)) with 0. rewrite Rplus_0_l. exact (proj2 AL). }
  assert (A1 : ap (sub (B64 L) (add (B64 L) (lit (B64 L) 0 0) (nlog (B64 L) mf)) (mul (B64 L) (lit (B64 L) 5 (-1)) tf)) (l - / 2 * / x) (u64 * (5 * l + 24 / 10))).
  { eapply ap_weak; [apply (ap_sub L _ _ _ _ _ _ (l + / 1000) A0 AH); [rewrite Rabs_pos_eq by lra; nra|lra]|]. nra. }
  assert (A2 : ap (sub (B64 L) (sub (B64 L) (add (B64 L) (lit (B64 L) 0 0) (nlog (B64 L) mf)) (mul (B64 L) (lit (B64 L) 5 (-1)) tf)) (mul (B64 L) t2 pf)) (psia x) (u64 * (6 * l + 26 / 10))).
  { replace (psia x) with (l - / 2 * / x - q) by (unfold psia; rewrite dig_poly; fold T; fold q; fold l; unfold Rdiv; ring).
    apply Rabs_le_between in QB. eapply ap_weak; [apply (ap_sub L _ _ _ _ _ _ (l + / 100) A1 AQ); [rewrite Rabs_pos_eq by lra; nra|lra]|]. nra. }
  assert (AG : ap (lit (B64 L) 57721566490153286 (-17)) gam u64).
  { eapply ap_weak; [rewrite <- gam_lit; apply (ap_lit L _ _ (58 / 100)); [rewrite gam_lit; unfold gam; rewrite Rabs_pos_eq; lra|lra]|]. lra. }
  pose proof (harmonic_asymp n Hn) as HA. assert (IN : 0 < / INR n) by (apply Rinv_0_lt_compat, lt_0_INR; lia). replace (INR n + 1) with x in HA by (unfold x, m; rewrite plus_IZR, <- INR_IZR_INZ; ring).
  rewrite <- H_harm by lia. assert (HB : l + 53 / 100 <= gam + psia x <= l + 58 / 100).
  { unfold psia. rewrite dig_poly. fold T. fold q. fold l. unfold gam. apply Rabs_le_between in QB. lra. }
  pose proof (ap_add L _ _ _ _ _ _ (l + 59 / 100) AG A2 ltac:(rewrite Rabs_pos_eq by lra; nra) ltac:(lra)) as [FF AA]. split; [exact FF|].
  apply Rabs_le_between in HA. rewrite (Rabs_pos_eq (H n)) by lra. rewrite <- u64_val.
  match type of AA with Rabs (?f - _) <= _ => replace (f - H n) with ((f - (gam + psia x)) + (gam + psia x - H n)) by ring end.
  eapply Rle_trans; [apply Rabs_triang|]. assert (GG : Rabs (gam + psia x - H n) <= u64 / 10) by (rewrite u64_val; apply Rabs_le; lra).
  assert (u64 * (l + 52 / 100) <= u64 * H n) by (apply Rmult_le_compat_l; lra). assert (3 * u64 <= u64 * l) by nra. lra.
Qed.
End B8.
