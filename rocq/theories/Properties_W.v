(** * C46: Li(n,z) for the orders n >= 7 against the principal branch *)
From Coq Require Import ZArith Reals List Bool Lra Lia Psatz.
From Coquelicot Require Import Coquelicot.
From Flocq Require Import Core.Raux.
From Interval Require Import Tactic.
From Verif Require Import Num NumR Outcome Spec Eval_R Consts Model_Tables Model_Zeta Model_LiC Model_Li Proof_Int Proof_LiInt Cplx Proof_Horner Clog_series Chain Polylog Polylog_series Clausen Zeta_num Bern Bern_num Harmonic Properties_F Properties_G Properties_H Properties_I Rest Unity Properties_K Properties_M Ccalc CLi CLi_disc CLi_inv Cpoly CLi_unity CLi_exp CLi_gen CLi_acc Li_gen Li_gen2 Li_nz.
Import ListNotations.
Local Open Scope out_scope.
Local Open Scope R_scope.

(** [CLi n z] is the principal branch (CLi.v; its characterisation is C45_spec_*: the power series in the unit
    disc, the differential equation, the value on the real axis, the inversion formula).

    The arithmetic is [NumQ e q]: exact complex arithmetic in which two numbers "compare equal" according to a
    test [q]; the loops of the code stop when two partial sums compare equal.  [stop_test q t]: against 0 the test
    is exact, and two numbers it takes for equal differ by at most t relatively - in double precision t = 2^-52
    or less.  The theorems bound everything that is not rounding: the truncation of the series by the stopping
    rule, the tables (zeta, eta, 1/m!, harmonic numbers), the choice of the region and the formulas. *)
Definition test (e : R) (q : option R -> option R -> bool) (t : R) : Prop := stop_test q t /\ 0 <= t <= / 100.

(** the dispatch for n >= 7, any arithmetic *)
Lemma Li_high (N : num) d fuel n z : ordinary N z -> (7 <= n)%Z -> Li N d fuel n z =
    if leb N (cnorm N z) (mul N (lit N 75 (-2)) (lit N 75 (-2))) then Li_series N fuel n z
    else if leb N (mul N (lit N 14 (-1)) (lit N 14 (-1))) (cnorm N z) then
      (let! s := Li_series N fuel n (cdiv_rc N (lit N 1 0) z) in let! r := Li_rest N n z in
       Val (cadd N (cmul_rc N (if is_even n then lit N (-1) 0 else lit N 1 0) s) r))
    else Li_unity_pos N fuel n z.
Proof.
  intros O Hn. destruct (ordinary_skip N z O) as (O1 & O2 & O3 & O4 & O5).
  destruct d; cbn [Li]; cbv zeta; rewrite O1, O2, O3, O4, O5.
  all: destruct (Z.ltb_spec n (-1)); [lia|].
  all: repeat match goal with |- context [if Z.eqb ?m ?k then _ else _] => destruct (Z.eqb_spec m k); [lia|] end; reflexivity.
Qed.
Lemma Li_zero (N : num) d fuel n z : (isnan N (fst z) || isnan N (snd z))%bool = false -> (isinf N (fst z) || isinf N (snd z))%bool = false ->
  (eqb N (fst z) (lit N 0 0) && eqb N (snd z) (lit N 0 0))%bool = true -> Li N d fuel n z = Val z.
Proof. intros A B C. destruct d; cbn [Li]; cbv zeta; rewrite A, B, C; reflexivity. Qed.
Section L.
Variables (e t : R) (q : option R -> option R -> bool) (d fuel n : nat).
Hypothesis Ht : test e q t.
Hypothesis Hn : (7 <= n)%nat.
Notation N := (NumQ e q).
Lemma lit_sq : mul N (lit N 75 (-2)) (lit N 75 (-2)) = Some (3 / 4 * (3 / 4)) /\ mul N (lit N 14 (-1)) (lit N 14 (-1)) = Some (7 / 5 * (7 / 5)).
Proof. split; cbn [mul lit NumQ NumR lift2]; f_equal; unfold litR; cbn; lra. Qed.
Lemma sq_le a b : 0 <= a -> 0 <= b -> (a * a <= b * b <-> a <= b).
Proof. intros A B. split; intros H; [apply Rnot_lt_le; intros K; nra|nra]. Qed.
Lemma dispatch (z : C) : snd z <> 0 \/ (0 < Cmod z <= 3 / 4) ->
  Li N d fuel (Z.of_nat n) (ofC e z) =
    if Rle_dec (Cmod z) (3 / 4) then Li_series N fuel (Z.of_nat n) (ofC e z)
    else if Rle_dec (7 / 5) (Cmod z) then
      (let! s := Li_series N fuel (Z.of_nat n) (ofC e (Cinv z)) in let! r := Li_rest N (Z.of_nat n) (ofC e z) in
       Val (cadd N (cmul_rc N (if Nat.even n then Some (-1) else Some 1) s) r))
    else Li_unity_pos N fuel (Z.of_nat n) (ofC e z).
Proof.
  intros H. destruct Ht as [[Q0 QT] T1].
  assert (Z0 : z <> RtoC 0). { intros ->. destruct H as [H|H]; [apply H; reflexivity|]. rewrite Cmod_0 in H. lra. }
  assert (SK : forall r, (r = 0 \/ r = 1 \/ r = -1) -> (q (Some (fst z)) (Some r) && q (Some (snd z)) (Some 0))%bool = false).
  { intros r R. rewrite Q0. unfold Reqb. destruct (Req_EM_T (snd z) 0) as [S0|S0]; [|apply andb_false_r]. rewrite andb_true_r.
    destruct H as [H|[H1 H2]]; [contradiction|]. pose proof (Cmod_fst z) as F. apply not_true_iff_false. intros K. destruct R as [->|R].
    - rewrite Q0 in K. unfold Reqb in K. destruct (Req_EM_T (fst z) 0) as [F0|]; [|discriminate]. apply Z0. destruct z; cbn in *; subst; reflexivity.
    - apply QT in K. assert (RA : Rabs r = 1) by (destruct R as [->| ->]; [apply Rabs_R1|rewrite Rabs_left; lra]). rewrite RA in K.
      pose proof (Rabs_triang_inv r (fst z)) as TI. rewrite <- (Rabs_Ropp (r - fst z)) in TI. replace (- (r - fst z)) with (fst z - r) in TI by ring. lra. }
  assert (O : ordinary N (ofC e z)).
  { split; [reflexivity|]. split; [reflexivity|]. split; [reflexivity|]. split; [reflexivity|]. intros S0.
    change (lit N) with (lit (NumR e)) in *. rewrite lit_int in S0. rewrite !lit_int.
    change (q (Some (snd z)) (Some 0) = true) in S0. change (q (Some (fst z)) (Some 0) = false /\ q (Some (fst z)) (Some 1) = false /\ q (Some (fst z)) (Some (-1)) = false).
    pose proof (SK 0 (or_introl eq_refl)) as A0. pose proof (SK 1 (or_intror (or_introl eq_refl))) as A1. pose proof (SK (-1) (or_intror (or_intror eq_refl))) as A2.
    rewrite S0, andb_true_r in A0, A1, A2. auto. }
  rewrite (Li_high N d fuel (Z.of_nat n) _ O) by lia. destruct lit_sq as [L1 L2]. rewrite L1, L2.
  replace (cnorm N (ofC e z)) with (Some (Cmod z * Cmod z) : car N) by (symmetry; exact (ofC_norm e z)).
  cbn [leb NumQ NumR ocmp]. unfold Rleb. pose proof (Cmod_ge_0 z) as ZP.
  destruct (Rle_dec (Cmod z * Cmod z) (3 / 4 * (3 / 4))) as [B|B]; (rewrite sq_le in B by lra); (destruct (Rle_dec (Cmod z) (3 / 4)) as [B'|B']; [|]); try contradiction; [reflexivity|].
  destruct (Rle_dec (7 / 5 * (7 / 5)) (Cmod z * Cmod z)) as [D|D]; (rewrite sq_le in D by lra); (destruct (Rle_dec (7 / 5) (Cmod z)) as [D'|D']; [|]); try contradiction; [|reflexivity].
  replace (cdiv_rc N (lit N 1 0) (ofC e z)) with (ofC e (Cinv z) : cpx N).
  2:{ change (lit N) with (lit (NumR e)). rewrite lit_int. transitivity (ofC e (Cdiv (RtoC 1) z) : cpx N); [apply (f_equal (ofC e)); unfold Cdiv; ring|symmetry; exact (ofC_div_rc e 1 z Z0)]. }
  rewrite even_n by exact Hn. change (lit N) with (lit (NumR e)). rewrite !lit_int. reflexivity.
Qed.
(** |z| <= 3/4 (real or complex z): the power series.  Relative to |z|, which is Li_n(z) up to 2% *)
Theorem C46_series_region (z : C) w : Cmod z <= 3 / 4 -> Li N d fuel (Z.of_nat n) (ofC e z) = Val w ->
  exists s, w = ofC e s /\ Cmod (Cminus s (CLi n z)) <= 4 * t * Cmod z + Cmod z / 10 ^ 100.
Proof.
  intros Hz H. destruct Ht as [Q T]. destruct (Ceq_dec z (RtoC 0)) as [->|Z0].
  - exists (RtoC 0). assert (E : Li N d fuel (Z.of_nat n) (ofC e (RtoC 0)) = Val (ofC e (RtoC 0))).
    { destruct Q as [Q0 _]. assert (S0 : (eqb N (fst (ofC e (RtoC 0))) (lit N 0 0) && eqb N (snd (ofC e (RtoC 0))) (lit N 0 0))%bool = true).
      { change (lit N) with (lit (NumR e)). rewrite lit_int. cbn [ofC fst snd RtoC]. change (eqb N) with q. rewrite Q0, Reqb_true by reflexivity. reflexivity. }
      apply Li_zero; [reflexivity|reflexivity|exact S0]. }
    rewrite E in H. injection H as <-. split; [reflexivity|].
    replace (CLi n (RtoC 0)) with (RtoC 0). { replace (Cminus (RtoC 0) (RtoC 0)) with (RtoC 0) by ring. rewrite Cmod_0. lra. }
    symmetry. apply CLi_0.
  - rewrite dispatch in H by (right; split; [apply Cmod_gt_0; exact Z0|exact Hz]). destruct (Rle_dec (Cmod z) (3 / 4)); [|contradiction].
    exact (series_acc e q t Q T n z fuel w Hn Hz H).
Qed.
(** 3/4 < |z| < 7/5, off the real axis: the expansion about 1.  [w = (None, None)]: the loop has run through all
    130 tabulated zeta values without the test ever taking two partial sums for equal *)
Theorem C46_unity_region (z : C) w : (Z.of_nat n <= 3037000497)%Z -> snd z <> 0 -> 3 / 4 < Cmod z < 7 / 5 -> Li N d fuel (Z.of_nat n) (ofC e z) = Val w ->
  (exists s, w = ofC e s /\ Cmod (Cminus s (CLi n z)) <= 2 / 10 ^ 15 + 0.4 * t * Cmod s) \/ w = (None, None).
Proof.
  intros Hb HI Hz H. destruct Ht as [Q T]. rewrite dispatch in H by (left; exact HI). destruct (Rle_dec (Cmod z) (3 / 4)); [lra|]. destruct (Rle_dec (7 / 5) (Cmod z)); [lra|].
  apply (unity_acc e q t Q T n Hn Hb z fuel w HI ltac:(lra) H).
Qed.
(** ... which does not happen if the test accepts numbers within a relative distance t0 >= 1e-50 and neither the
    real nor the imaginary part of Li_n(z) is below 1e-14: the code then returns after at most 129 passes *)
Theorem C46_unity_region_returns t0 (z : C) : accepts q t0 -> / 10 ^ 50 <= t0 -> (Z.of_nat n <= 3037000000)%Z -> (129 <= fuel)%nat ->
  snd z <> 0 -> 3 / 4 < Cmod z < 7 / 5 -> / 10 ^ 14 <= Rabs (fst (CLi n z)) -> / 10 ^ 14 <= Rabs (snd (CLi n z)) ->
  exists s, Li N d fuel (Z.of_nat n) (ofC e z) = Val (ofC e s) /\ Cmod (Cminus s (CLi n z)) <= 2 / 10 ^ 15 + 0.4 * t * Cmod s.
Proof.
  intros A T0 Hb Hf HI Hz CR CI. pose proof Ht as [Q T].
  destruct (unity_returns e q t0 n z fuel (proj1 Q) A T0 Hn Hb HI ltac:(lra) CR CI Hf) as (s & S). exists s.
  assert (E : Li N d fuel (Z.of_nat n) (ofC e z) = Val (ofC e s)).
  { rewrite dispatch by (left; exact HI). destruct (Rle_dec (Cmod z) (3 / 4)); [lra|]. destruct (Rle_dec (7 / 5) (Cmod z)); [lra|]. exact S. }
  split; [exact E|]. destruct (C46_unity_region z (ofC e s) ltac:(lia) HI Hz E) as [(s' & S' & B)|B]; [|discriminate B].
  assert (s = s') as ->; [|exact B]. destruct s, s'. unfold ofC in S'. cbn in S'. congruence.
Qed.
(** |z| >= 7/5, off the real axis: the inversion formula.  With L = Log(-z) the error is the one of the series at
    1/z, 3e-16 sum_{m<=177} |L|^m/m! from the tables, and for n >= 178 the terms m >= 178 which the code cuts off.
    The hypothesis on the tables c, f of the code: no partial sum of the remainder is exactly zero (the loop compares
    with the never updated old_sum = 0 and would leave early) *)
Theorem C46_inversion_region (z : C) w (c f : nat -> R) : snd z <> 0 -> 7 / 5 <= Cmod z ->
  code_tables e c f -> no_zero_sum n c f (Clog (Copp z)) ->
  Li N d fuel (Z.of_nat n) (ofC e z) = Val w ->
  exists s, w = ofC e s /\ Cmod (Cminus s (CLi n z)) <= 4 * t / Cmod z + / (Cmod z * 10 ^ 100) +
    sum_f_R0 (fun m => (if (m <=? 177)%nat then 3 / 10 ^ 16 else 2.1) * (Cmod (Clog (Copp z)) ^ m / INR (fact m))) n.
Proof.
  intros HI Hz TB NZ H. destruct Ht as [Q T]. assert (Z0 : z <> RtoC 0) by (intros ->; apply HI; reflexivity). rewrite dispatch in H by (left; exact HI).
  destruct (Rle_dec (Cmod z) (3 / 4)); [lra|]. destruct (Rle_dec (7 / 5) (Cmod z)); [|contradiction].
  assert (IM : Cmod (Cinv z) = / Cmod z) by (apply Cmod_inv; exact Z0).
  assert (I1 : Cmod (Cinv z) <= 3 / 4). { rewrite IM. apply Rle_trans with (/ (7 / 5)); [apply Rinv_le_contravar; lra|lra]. }
  destruct (Li_series N fuel (Z.of_nat n) (ofC e (Cinv z))) as [s0| |] eqn:ES; try discriminate H. cbn [bind] in H.
  destruct (series_acc e q t Q T n (Cinv z) fuel s0 Hn I1 ES) as (s & -> & SA). rewrite IM in SA.
  set (L := Clog (Copp z)) in *.
  assert (ER : Li_rest N (Z.of_nat n) (ofC e z) = Val (ofC e (restC c f n L))).
  { rewrite (rest_same e q t Q n Hn c f z TB HI). assert (Z1 : Copp z <> RtoC 0) by (intros E; apply (f_equal snd) in E; unfold Copp, RtoC in E; cbn [snd] in E; lra).
    apply Li_rest_ok; [intros; apply TB|intros; apply TB; lia|exact (f_zero_up e c f TB)|exact NZ|]. rewrite ofC_opp. apply log_exact; [exact Z1|left; unfold Copp; cbn [snd]; lra]. }
  rewrite ER in H. cbn [bind] in H. injection H as <-.
  destruct (tables_ex e) as (c' & f' & T' & C & F & F0). destruct (tables_unique e _ _ _ _ TB T') as [EF EC].
  assert (C2 : forall j, (1 <= j)%nat -> Rabs (c j - neg_eta_true j) <= 6 / 10 ^ 17) by (intros j Hj; rewrite EC by exact Hj; apply C; exact Hj).
  assert (F2 : forall m, (m <= 177)%nat -> Rabs (f m - inv_fact m) <= 6 / 10 ^ 17 * inv_fact m) by (intros m Hm; rewrite EF; apply F; exact Hm).
  assert (F3 : forall m, (178 <= m)%nat -> f m = 0) by (intros m Hm; rewrite EF; apply F0; exact Hm).
  pose proof (rest_err_sharp n c f L C2 F2 F3) as RE. pose proof (CLi_inversion n z (or_intror HI)) as INV. fold L in INV.
  assert (SG : (if Nat.even n then Some (-1) else Some 1) = Some (- (-1) ^ n)).
  { assert (PM : forall k, (-1) ^ k = if Nat.even k then 1 else -1).
    { induction k as [|k IHk]; [reflexivity|]. cbn [pow]. rewrite IHk, Nat.even_succ, <- Nat.negb_even. destruct (Nat.even k); cbn; ring. }
    rewrite PM. destruct (Nat.even n); f_equal; ring. }
  exists (Cplus (Cmult (RtoC (- (-1) ^ n)) s) (restC c f n L)). split.
  { rewrite SG. transitivity (cadd N (ofC e (Cmult (RtoC (- (-1) ^ n)) s)) (ofC e (restC c f n L))); [f_equal; exact (ofC_mul_rc e _ _)|exact (ofC_add e _ _)]. }
  set (X := CLi n z) in *. set (Y := CLi n (Cinv z)) in *. set (R1 := restC c f n L) in *. set (R0 := restC neg_eta_true inv_fact n L) in *.
  assert (EX : X = Cminus R0 (Cmult (RtoC ((-1) ^ n)) Y)) by (rewrite <- INV; ring).
  replace (Cminus (Cplus (Cmult (RtoC (- (-1) ^ n)) s) R1) X) with (Cplus (Cmult (RtoC (- (-1) ^ n)) (Cminus s Y)) (Cminus R1 R0)) by (rewrite EX, RtoC_opp; ring).
  eapply Rle_trans; [apply Cmod_triangle|]. rewrite Cmod_mult, Cmod_R. rewrite Rabs_Ropp, pow_1_abs, Rmult_1_l.
  assert (E1 : 4 * t / Cmod z + / (Cmod z * 10 ^ 100) = 4 * t * / Cmod z + / Cmod z / 10 ^ 100) by (field; lra). rewrite E1. lra.
Qed.
(** ... and none is zero when |Arg(-z)| <= 1.414 (n even) resp. 2.449 (n odd): no hypothesis on the tables is left *)
Theorem C46_inversion_region_sector (z : C) w : snd z <> 0 -> 7 / 5 <= Cmod z -> Rabs (Carg (Copp z)) <= (if Nat.even n then 1.414 else 2.449) ->
  Li N d fuel (Z.of_nat n) (ofC e z) = Val w ->
  exists s, w = ofC e s /\ Cmod (Cminus s (CLi n z)) <= 4 * t / Cmod z + / (Cmod z * 10 ^ 100) +
    sum_f_R0 (fun m => (if (m <=? 177)%nat then 3 / 10 ^ 16 else 2.1) * (Cmod (Clog (Copp z)) ^ m / INR (fact m))) n.
Proof.
  intros HI Hz HA H. destruct (tables_ex e) as (c & f & T & _). apply (C46_inversion_region z w c f HI Hz T); [|exact H].
  apply (rest_sums_nonzero e n c f _ T); [|exact HA]. intros E. apply (f_equal fst) in E. unfold Clog, RtoC in E. cbn [fst] in E. rewrite Cmod_opp in E.
  assert (0 < ln (Cmod z)) by (rewrite <- ln_1; apply ln_increasing; lra). lra.
Qed.
End L.

(** ** such runs exist *)
Lemma q_tol_test e : test e q_tol (/ 2 ^ 53).
Proof.
  split; [split; [exact q_tol_exact|]|lra]. intros x y H. unfold q_tol in H. destruct (Req_EM_T y 0) as [->|Y].
  - unfold Reqb in H. destruct (Req_EM_T x 0) as [->|]; [|discriminate]. rewrite Rminus_0_r, Rabs_R0. lra.
  - unfold Rleb in H. destruct (Rle_dec _ _) as [G|G]; [|discriminate]. unfold Rdiv in G. lra.
Qed.
Lemma q_tol_accepts : accepts q_tol (/ 2 ^ 53).
Proof.
  intros x y Y H. unfold q_tol. destruct (Req_EM_T y 0); [contradiction|]. unfold Rleb. destruct (Rle_dec _ _) as [G|G]; [reflexivity|]. exfalso. apply G. unfold Rdiv. lra.
Qed.
Theorem C46_series_region_returns (e : R) (d fuel n : nat) (z : C) : (7 <= n)%nat -> (2 ^ 63 <= Z.of_nat fuel)%Z -> 0 < Cmod z <= 3 / 4 ->
  exists s, Li (NumQ e q_tol) d fuel (Z.of_nat n) (ofC e z) = Val (ofC e s) /\ Cmod (Cminus s (CLi n z)) <= 5 / 10 ^ 16 * Cmod z.
Proof.
  intros Hn Hf Hz. pose proof (q_tol_test e) as T. pose proof (dispatch e (/ 2 ^ 53) q_tol d fuel n T Hn z (or_intror Hz)) as D. destruct (Rle_dec (Cmod z) (3 / 4)); [|lra].
  destruct (C32_series_stops (NumQ e q_tol) fuel (Z.of_nat n) (ofC e z) Hf) as (v & V). rewrite V in D.
  destruct (C46_series_region e (/ 2 ^ 53) q_tol d fuel n T Hn z v (proj2 Hz) D) as (s & -> & B). exists s. split; [exact D|]. lra.
Qed.
Theorem C46_inversion_region_returns (e : R) (d fuel n : nat) (z : C) : (7 <= n)%nat -> is_int64 (Z.of_nat n) -> (2 ^ 63 <= Z.of_nat fuel)%Z -> snd z <> 0 -> 7 / 5 <= Cmod z ->
  Rabs (Carg (Copp z)) <= (if Nat.even n then 1.414 else 2.449) ->
  exists s, Li (NumQ e q_tol) d fuel (Z.of_nat n) (ofC e z) = Val (ofC e s) /\ Cmod (Cminus s (CLi n z)) <= 5 / 10 ^ 16 / Cmod z +
    sum_f_R0 (fun m => (if (m <=? 177)%nat then 3 / 10 ^ 16 else 2.1) * (Cmod (Clog (Copp z)) ^ m / INR (fact m))) n.
Proof.
  intros Hn I Hf HI Hz HA. pose proof (q_tol_test e) as T. pose proof (dispatch e (/ 2 ^ 53) q_tol d fuel n T Hn z (or_introl HI)) as D.
  destruct (Rle_dec (Cmod z) (3 / 4)); [lra|]. destruct (Rle_dec (7 / 5) (Cmod z)); [|lra].
  destruct (C32_series_stops (NumQ e q_tol) fuel (Z.of_nat n) (ofC e (Cinv z)) Hf) as (v & V). rewrite V in D. cbn [bind] in D.
  destruct (rest_val (NumQ e q_tol) (Z.of_nat n) (ofC e z) I ltac:(lia)) as (r0 & R0). rewrite R0 in D. cbn [bind] in D.
  destruct (C46_inversion_region_sector e (/ 2 ^ 53) q_tol d fuel n T Hn z _ HI Hz HA D) as (s & S & B). rewrite S in D. exists s. split; [exact D|].
  eapply Rle_trans; [exact B|]. apply Rplus_le_compat_r. assert (ZP : 0 < / Cmod z) by (apply Rinv_0_lt_compat; lra).
  rewrite Rinv_mult. unfold Rdiv. assert (/ 10 ^ 100 <= / 10 ^ 20) by (apply Rinv_le_contravar; [apply pow_lt; lra|apply Rle_pow; [lra|lia]]).
  assert (/ Cmod z * / 10 ^ 100 <= / Cmod z * / 10 ^ 20) by (apply Rmult_le_compat_l; lra). lra.
Qed.
(** a concrete point of the sector: z = -2 + i *)
Example C46_sector_nonvacuous : snd (-2, 1) <> 0 /\ 7 / 5 <= Cmod (-2, 1) /\ forall n, Rabs (Carg (Copp (-2, 1))) <= (if Nat.even n then 1.414 else 2.449).
Proof.
  split; [cbn; lra|]. split. { rewrite Cmod_alt. cbn [fst snd]. interval. }
  intros n. assert (A : Rabs (Carg (Copp (-2, 1))) <= 1). 2:{ destruct (Nat.even n); lra. }
  unfold Carg, Copp, atan2R. cbn [fst snd]. destruct (Rlt_dec 0 (- -2)) as [_|Q]; [|exfalso; apply Q; lra]. interval.
Qed.
Example C46_nonvacuous e : test e q_tol (/ 2 ^ 53) /\ accepts q_tol (/ 2 ^ 53) /\ / 10 ^ 50 <= / 2 ^ 53 /\ snd (3 / 5, 4 / 5) <> 0 /\ 3 / 4 < Cmod (3 / 5, 4 / 5) < 7 / 5 /\
  snd (1, 2) <> 0 /\ 7 / 5 <= Cmod (1, 2) /\ exists c f, code_tables e c f.
Proof.
  split; [apply q_tol_test|]. split; [apply q_tol_accepts|]. split; [lra|]. split; [cbn; lra|].
  split. { rewrite Cmod_alt. cbn [fst snd]. replace (3 / 5 * (3 / 5) + 4 / 5 * (4 / 5)) with 1 by field. rewrite sqrt_1. lra. }
  split; [cbn; lra|]. split. { rewrite Cmod_alt. cbn [fst snd]. interval. }
  destruct (tables_ex e) as (c & f & T & _). exists c, f. exact T.
Qed.
