(** * C30, C31 (duplication recursion), C32 (series loops), C33 (inversion remainder) *)
From Coq Require Import ZArith Reals List Bool Lra Lia Psatz.
From Coquelicot Require Import Coquelicot.
From Flocq Require Import Core.Raux.
From Interval Require Import Tactic.
From Verif Require Import Num NumR Outcome Spec Eval_R Consts Model_Tables Model_Zeta Model_LiC Model_Li Proof_Int Proof_LiInt Cplx Proof_Horner Clog_series Polyneg Properties_H.
Import ListNotations.
Local Open Scope R_scope.

(** ** the square root of the model *)
Definition Csqrt (z : C) : C := (sqrt (Cmod z) * cos (Carg z / 2), sqrt (Cmod z) * sin (Carg z / 2)).
Lemma ofC_sqrt e z : csqrt (NumR e) (ofC e z) = ofC e (Csqrt z).
Proof.
  unfold csqrt. rewrite ofC_abs, ofC_arg, lit_int. cbn [nsqrt div NumR]. cbv zeta.
  rewrite odiv_some by lra. unfold osqrt. destruct (Rle_dec 0 (Cmod z)) as [H|H]; [|pose proof (Cmod_ge_0 z); lra]. reflexivity.
Qed.
(** principal square root: the square is z and the real part is not negative *)
Lemma Csqrt_sq z : z <> RtoC 0 -> Cmult (Csqrt z) (Csqrt z) = z.
Proof.
  intros H. destruct (Clog_spec z H) as [E _]. pose proof (Cmod_ge_0 z) as M. pose proof (proj1 (Cmod_gt_0 z) H) as M1.
  unfold Clog, Cexp in E. cbn [fst snd] in E. rewrite exp_ln in E by exact M1.
  unfold Cmult, Csqrt. cbn [fst snd]. set (r := sqrt (Cmod z)). assert (R : r * r = Cmod z) by (apply sqrt_sqrt; exact M).
  set (a := Carg z / 2) in *. assert (A : Carg z = 2 * a) by (unfold a; field). rewrite A in E.
  rewrite cos_2a, sin_2a in E. refine (eq_trans _ E). f_equal.
  - replace (r * cos a * (r * cos a) - r * sin a * (r * sin a)) with ((r * r) * (cos a * cos a - sin a * sin a)) by ring. rewrite R. reflexivity.
  - replace (r * cos a * (r * sin a) + r * sin a * (r * cos a)) with ((r * r) * (2 * sin a * cos a)) by ring. rewrite R. reflexivity.
Qed.
Lemma Csqrt_neq z : z <> RtoC 0 -> Csqrt z <> RtoC 0.
Proof. intros H E. apply H. rewrite <- (Csqrt_sq z H), E. ring. Qed.
Lemma Csqrt_ln z : z <> RtoC 0 -> ln (Cmod (Csqrt z)) = ln (Cmod z) / 2.
Proof.
  intros H. pose proof (proj1 (Cmod_gt_0 _) (Csqrt_neq z H)) as M. pose proof (f_equal Cmod (Csqrt_sq z H)) as E. rewrite Cmod_mult in E.
  rewrite <- E, ln_mult by exact M. field.
Qed.

(** ** C32: Li_series.  The term z^k / k^n, k = 1, 2, ... *)
Definition polyterm (n : Z) (z : C) (k : nat) : C := Cmult (RtoC (powerRZ (INR (S k)) (- n))) (Cpow z (S k)).
Lemma powerRZ_quot a b n : 0 < a -> 0 < b -> powerRZ (a / b) n = powerRZ a n * powerRZ b (- n).
Proof.
  intros A B. unfold Rdiv. rewrite powerRZ_mult. f_equal. rewrite powerRZ_neg', powerRZ_inv'. reflexivity.
Qed.
Lemma Rpower_Z x n : 0 < x -> Rpower x (IZR n) = powerRZ x n.
Proof. intros H. symmetry. apply powerRZ_Rpower. exact H. Qed.
(** one pass of the loop adds the next term *)
Lemma polyterm_step n z k : 
  Cmult (polyterm n z k) (Cmult z (RtoC (Rpower (IZR (Z.of_nat (S k)) / (1 + IZR (Z.of_nat (S k)))) (IZR n)))) = polyterm n z (S k).
Proof.
  unfold polyterm. rewrite <- INR_IZR_INZ. pose proof (lt_0_INR (S k) ltac:(lia)) as P.
  assert (P1 : 0 < 1 + INR (S k)) by lra.
  rewrite Rpower_Z by (apply Rdiv_lt_0_compat; assumption). rewrite powerRZ_quot by assumption.
  replace (1 + INR (S k)) with (INR (S (S k))) by (rewrite (S_INR (S k)); ring).
  change (Cpow z (S (S k))) with (Cmult z (Cpow z (S k))). rewrite RtoC_mult.
  assert (E : powerRZ (INR (S k)) (- n) * powerRZ (INR (S k)) n = 1).
  { rewrite <- powerRZ_add by lra. replace (- n + n)%Z with 0%Z by lia. reflexivity. }
  set (a := powerRZ (INR (S k)) (- n)) in *. set (b := powerRZ (INR (S k)) n) in *.
  transitivity (Cmult (RtoC (a * b)) (Cmult (RtoC (powerRZ (INR (S (S k))) (- n))) (Cmult z (Cpow z (S k))))); [rewrite RtoC_mult; ring|].
  rewrite E. ring.
Qed.
Lemma ofC_finite e z : Model_Li.is_finite (NumR e) (ofC e z) = true. Proof. reflexivity. Qed.
Lemma series_loop_partial e n (z : C) : forall fuel k s w, (0 <= Z.of_nat k < INT64_MAX - 2)%Z -> s = Csum (polyterm n z) k ->
  Li_series_loop (NumR e) fuel n (ofC e z) (Z.of_nat k) (ofC e s) (ofC e (polyterm n z k)) = Val w ->
  exists K, (k < K <= k + fuel)%nat /\ w = ofC e (Csum (polyterm n z) K).
Proof.
  induction fuel as [|f IH]; intros k s w Hk -> H; [discriminate H|].
  cbn [Li_series_loop] in H. rewrite i64_ok in H by (un; lia). cbn [bind] in H. cbv zeta in H.
  rewrite ofC_add in H. change (Cplus (Csum (polyterm n z) k) (polyterm n z k)) with (Csum (polyterm n z) (S k)) in H.
  replace (Z.of_nat k + 1)%Z with (Z.of_nat (S k)) in H by lia.
  rewrite lit_int in H. cbn [npow div add ofZ NumR lift2] in H.
  pose proof (lt_0_INR (S k) ltac:(lia)) as P. rewrite INR_IZR_INZ in P.
  rewrite odiv_some in H by lra. unfold opow in H.
  destruct (Rlt_dec 0 (IZR (Z.of_nat (S k)) / (1 + IZR (Z.of_nat (S k))))) as [Q|Q]; [|elim Q; apply Rdiv_lt_0_compat; lra].
  rewrite ofC_mul_cr, ofC_mul, polyterm_step, ofC_finite in H. cbn [negb] in H.
  match type of H with (if ?b then _ else _) = _ => destruct b eqn:B end.
  - apply andb_prop in B. destruct B as [_ B]. apply Z.ltb_lt in B.
    destruct (IH (S k) (Csum (polyterm n z) (S k)) w ltac:(lia) eq_refl H) as (K & HK & E). exists K. split; [lia|exact E].
  - injection H as <-. exists (S k). split; [lia|reflexivity].
Qed.
(** Li_series returns a partial sum of z^k/k^n *)
Theorem C32_series_partial_sum e fuel n (z : C) w : Li_series (NumR e) fuel n (ofC e z) = Val w ->
  exists K, (1 <= K <= fuel)%nat /\ w = ofC e (Csum (fun k => Cmult (RtoC (powerRZ (INR (S k)) (- n))) (Cpow z (S k))) K).
Proof.
  intros H. unfold Li_series in H.
  assert (E : ofC e z = ofC e (polyterm n z 0)).
  { unfold polyterm. cbn [INR Cpow]. rewrite powerRZ_R1. f_equal. ring. }
  replace (czero (NumR e)) with (ofC e (RtoC 0)) in H by (unfold czero, ofC; rewrite lit_int; reflexivity).
  rewrite E in H at 2.
  destruct (series_loop_partial e n z fuel 0 (RtoC 0) w ltac:(un; lia) eq_refl H) as (K & HK & W). exists K. split; [lia|exact W].
Qed.
(** every loop stops, whatever the arithmetic: Li_series after at most 2^63 passes ... *)
Theorem C32_series_stops (N : num) fuel n z : (2 ^ 63 <= Z.of_nat fuel)%Z -> exists v, Li_series N fuel n z = Val v.
Proof. apply series_stops. Qed.
(** ... and in double arithmetic the expansion about 1 for negative order after at most 131 *)
Theorem C32_unity_neg_stops L fuel n z : (INT64_MIN + 4 <= n <= -1)%Z -> (131 <= fuel)%nat ->
  exists v, Li_unity_neg (NumB.B64 L) fuel n z = Val v.
Proof. apply unity_neg_stops. Qed.
Example C32_nonvacuous : exists fuel v, Li_series (NumR eps_d) fuel 5 (ofC eps_d (1/2, 1/3)) = Val v.
Proof. exists (Z.to_nat (2 ^ 63)). apply C32_series_stops. rewrite Z2Nat.id; lia. Qed.

(** ** the expansion about z = 1 for negative order, exact arithmetic *)
Section U.
Variable e : R.
Notation N := (NumR e).
Lemma zeta_none n : (n <= -261)%Z -> is_even n = false -> is_int64 n -> n <> (INT64_MIN + 1)%Z -> zeta N n = Val None.
Proof.
  intros H O I D. destruct (odd_neg_form n) as (m & Hm & ->); [lia|exact O|].
  rewrite (zeta_neg_odd_inf N m) by (try lia; assumption). destruct (Z.even m); reflexivity.
Qed.
Lemma none_cmul_rc (z : cpx N) : Model_Li.is_finite N (cmul_rc N None z) = false.
Proof. destruct z as [[x|] [y|]]; reflexivity. Qed.
Lemma none_mul (f : option R) : mul N None f = None. Proof. reflexivity. Qed.
Lemma unity_neg_loop_stopsR n : is_int64 n -> (INT64_MIN + 2 <= n <= 0)%Z -> forall fuel k lnz2 lk s, (0 <= k)%Z -> is_even (n - k) = false ->
  (INT64_MIN + 2 <= n - k)%Z -> (n - k + 263 <= 2 * Z.of_nat fuel)%Z -> (1 <= fuel)%nat ->
  exists v, Li_unity_neg_loop N fuel n k lnz2 lk s = Val v.
Proof.
  intros I Hn. induction fuel as [|f IH]; intros k lnz2 lk s Hk Ho Hb Hf F1; [lia|].
  cbn [Li_unity_neg_loop]. rewrite (i64_ok (n - k)) by (un; lia). cbn [bind].
  destruct (Z.le_gt_cases (n - k) (-261)) as [C|C].
  - rewrite (zeta_none (n - k)) by (first [lia | exact Ho | un; lia]). cbn [bind].
    destruct (inv_fac_defined N k) as [w ->]. cbn [bind]. cbv zeta. rewrite none_mul, none_cmul_rc. cbn [negb]. eauto.
  - destruct (zeta_val N (n - k)) as [v ->]; [un; lia|un; lia|]. cbn [bind].
    destruct (inv_fac_defined N k) as [w ->]. cbn [bind]. cbv zeta.
    destruct (negb _); [eauto|]. rewrite i64_ok by (un; lia). cbn [bind].
    destruct (ceqb _ _ _); [eauto|]. apply IH; try lia.
    + rewrite even_Zeven in *. rewrite <- Ho. replace (n - (k + 2))%Z with (n - k - 2 * 1)%Z by lia.
      rewrite Z.even_sub, Z.even_mul. cbn. destruct (Z.even (n - k)); reflexivity.
    + un; lia.
Qed.
Lemma unity_neg_stopsR fuel n z : (INT64_MIN + 4 <= n <= -1)%Z -> (131 <= fuel)%nat -> exists v, Li_unity_neg N fuel n z = Val v.
Proof.
  intros Hn Hf. unfold Li_unity_neg. cbv zeta.
  rewrite (i64_ok (1 - n)) by (un; lia). cbn [bind]. rewrite (i64_ok (n - 1)) by (un; lia). cbn [bind].
  destruct (stable_pow_val N (copp N (Li_clog N z)) (n - 1)) as [v ->]; [un; lia|un; lia|]. cbn [bind].
  destruct (is_even n) eqn:E.
  - apply unity_neg_loop_stopsR; try lia; try (un; lia). rewrite even_Zeven in *. rewrite Z.even_sub, E. reflexivity.
  - destruct (zeta_val N n) as [w ->]; [un; lia|un; lia|]. cbn [bind].
    apply unity_neg_loop_stopsR; try lia; try (un; lia). rewrite even_Zeven in *. rewrite Z.even_sub, E. reflexivity.
Qed.

(** ** C30: termination of the recursion *)
Lemma Li_special_or n (z : C) d fuel : z <> RtoC 0 -> (INT64_MIN + 4 <= n <= -2)%Z ->
  (exists v, Li N d fuel n (ofC e z) = Val v) \/
  (Li N d fuel n (ofC e z) =
    if ltb N (mul N (mul N (mul N (lit N 4 0) (Li_PI N)) (Li_PI N)) (cnorm N (ofC e z))) (cnorm N (Li_clog N (ofC e z))) then Li_series N fuel n (ofC e z)
    else if ltb N (cnorm N (Li_clog N (ofC e z))) (mul N (mul N (mul N (mul N (lit N 512 (-3)) (lit N 512 (-3))) (lit N 4 0)) (Li_PI N)) (Li_PI N)) then Li_unity_neg N fuel n (ofC e z)
    else match d with O => NoFuel | S d' =>
      bind (Li N d' fuel n (ofC e (Csqrt z))) (fun a => bind (Li N d' fuel n (ofC e (Copp (Csqrt z)))) (fun b =>
        Val (cmul_rc N (nexp2 N (ofZ N (n - 1))) (cadd N a b)))) end).
Proof.
  intros Z0 Hn.
  destruct (Ceq_dec z (RtoC 1)) as [->|Z1].
  { left. destruct d; cbn [Li]; cbv zeta; rewrite !lit_int; cbn [fst snd ofC RtoC isnan isinf NumR orb eqb ocmp];
    rewrite (Reqb_false 1 0) by lra; rewrite !Reqb_true by reflexivity; cbn [andb]; destruct (Z.leb_spec n 0); try lia; eauto. }
  destruct (Ceq_dec z (RtoC (-1))) as [->|Zm].
  { left. rewrite Li_atm1. destruct (neg_eta_val N n) as [v ->]; [un; lia|un; lia|]. cbn [bind]. eauto. }
  right. destruct (ordinary_skip N (ofC e z) (ordinary_exact e z Z0 Z1 Zm)) as (O1 & O2 & O3 & O4 & O5).
  assert (E : (n <? -1)%Z = true) by (apply Z.ltb_lt; lia).
  destruct d; cbn [Li]; cbv zeta; rewrite O1, O2, O3, O4, O5, E; [reflexivity|].
  destruct (ltb _ _ _); [reflexivity|]. destruct (ltb _ _ _); [reflexivity|].
  rewrite (i64_ok (n - 1)) by (un; lia). cbn [bind]. rewrite ofC_sqrt, ofC_opp. reflexivity.
Qed.
Lemma terminal_series (z : C) : z <> RtoC 0 -> ln (Cmod z) <= -1.5 ->
  ltb N (mul N (mul N (mul N (lit N 4 0) (Li_PI N)) (Li_PI N)) (cnorm N (ofC e z))) (cnorm N (Li_clog N (ofC e z))) = true.
Proof.
  intros Z0 H. destruct (Li_clog_norm e z Z0) as (q & Q & Hq). destruct (thr4_exact e (Cmod z * Cmod z)) as (t4 & T4 & Ht4).
  rewrite ofC_norm, T4, Q. cbn [ltb NumR ocmp]. apply Rltb_true.
  pose proof (proj1 (Cmod_gt_0 z) Z0) as M.
  assert (B : Cmod z <= exp (-1.5)) by (rewrite <- (exp_ln (Cmod z)) by exact M; apply Raux.exp_le; exact H).
  assert (B2 : Cmod z <= 0.2232) by (eapply Rle_trans; [exact B|]; interval).
  assert (Cmod z * Cmod z <= 0.04982) by nra.
  assert (2.25 <= ln (Cmod z) * ln (Cmod z)) by nra. nra.
Qed.
Lemma terminal_unity (z : C) : z <> RtoC 0 -> -0.692 <= ln (Cmod z) <= 0.692 ->
  ltb N (cnorm N (Li_clog N (ofC e z))) (mul N (mul N (mul N (mul N (lit N 512 (-3)) (lit N 512 (-3))) (lit N 4 0)) (Li_PI N)) (Li_PI N)) = true.
Proof.
  intros Z0 H. destruct (Li_clog_norm e z Z0) as (q & Q & Hq). destruct (thr_exact e) as (t & T & Ht).
  rewrite T, Q. cbn [ltb NumR ocmp]. apply Rltb_true. nra.
Qed.
Lemma Li_depth n fuel : (INT64_MIN + 4 <= n <= -2)%Z -> (2 ^ 63 <= Z.of_nat fuel)%Z -> forall d (z : C), z <> RtoC 0 ->
  (ln (Cmod z) <= -1.5 \/ Rabs (ln (Cmod z)) <= 0.692 * 2 ^ d) -> exists v, Li N d fuel n (ofC e z) = Val v.
Proof.
  intros Hn Hf. induction d as [|d IH]; intros z Z0 H.
  - destruct (Li_special_or n z 0 fuel Z0 Hn) as [Q| ->]; [exact Q|]. destruct H as [H|H].
    + rewrite terminal_series by assumption. apply series_stops. exact Hf.
    + rewrite terminal_unity by (try assumption; apply Rabs_le_between in H; cbn [pow] in H; lra).
      destruct (ltb _ _ _); [apply series_stops; exact Hf|]. apply unity_neg_stopsR; [lia|]. lia.
  - destruct (Li_special_or n z (S d) fuel Z0 Hn) as [Q| ->]; [exact Q|].
    match goal with |- context[if ?b then _ else _] => destruct b eqn:T1 end; [apply series_stops; exact Hf|].
    match goal with |- context[if ?b then _ else _] => destruct b end; [apply unity_neg_stopsR; lia|].
    assert (H' : Rabs (ln (Cmod z)) <= 0.692 * 2 ^ S d).
    { destruct H as [H|H]; [|exact H]. rewrite terminal_series in T1 by assumption. discriminate. }
    assert (G : forall s, s <> RtoC 0 -> ln (Cmod s) = ln (Cmod z) / 2 -> exists v, Li N d fuel n (ofC e s) = Val v).
    { intros s S0 L. apply IH; [exact S0|right]. rewrite L. unfold Rdiv. rewrite Rabs_mult, (Rabs_pos_eq (/2)) by lra. cbn [pow] in H'. lra. }
    destruct (G (Csqrt z)) as [a ->]; [apply Csqrt_neq; exact Z0|apply Csqrt_ln; exact Z0|]. cbn [bind].
    destruct (G (Copp (Csqrt z))) as [b ->].
    { intros E. apply (Csqrt_neq z Z0). replace (Csqrt z) with (Copp (Copp (Csqrt z))) by ring. rewrite E. ring. }
    { rewrite Cmod_opp. apply Csqrt_ln; exact Z0. }
    cbn [bind]. eauto.
Qed.
End U.
(** recursion depth 11 is enough for every z with |z| up to sqrt 2 * 2^1024 (the largest modulus a
    pair of doubles can have): the call returns, however small |z| is.
    2^63 passes is the hard limit the source puts on the series loop. *)
Theorem C30_depth_11 e fuel n (z : C) : (INT64_MIN + 4 <= n <= -2)%Z -> (2 ^ 63 <= Z.of_nat fuel)%Z -> z <> RtoC 0 ->
  Cmod z <= sqrt 2 * 2 ^ 1024 -> exists v, Li (NumR e) 11 fuel n (ofC e z) = Val v.
Proof.
  intros Hn Hf Z0 M. apply Li_depth; try assumption. pose proof (proj1 (Cmod_gt_0 z) Z0) as P.
  assert (U : ln (Cmod z) <= 711).
  { apply Rle_trans with (ln (sqrt 2 * 2 ^ 1024)).
    - destruct M as [M|M]; [left; apply ln_increasing; assumption|rewrite M; lra].
    - rewrite ln_mult by (try apply pow_lt; try apply sqrt_lt_R0; lra). rewrite ln_pow by lra.
      replace (INR 1024) with 1024 by (rewrite INR_IZR_INZ; reflexivity).
      assert (ln (sqrt 2) <= 0.35) by interval. assert (ln 2 <= 0.693148) by interval. lra. }
  destruct (Rle_dec (ln (Cmod z)) (-1.5)) as [A|A]; [left; exact A|right].
  replace (2 ^ 11) with 2048 by ring. apply Rabs_le. lra.
Qed.
(** in general the depth grows with the logarithm of log |z| only *)
Theorem C30_depth_any e fuel n (z : C) d : (INT64_MIN + 4 <= n <= -2)%Z -> (2 ^ 63 <= Z.of_nat fuel)%Z -> z <> RtoC 0 ->
  (2 <= d)%nat -> ln (Cmod z) <= 0.692 * 2 ^ d -> exists v, Li (NumR e) d fuel n (ofC e z) = Val v.
Proof.
  intros Hn Hf Z0 Hd M. apply Li_depth; try assumption.
  destruct (Rle_dec (ln (Cmod z)) (-1.5)) as [A|A]; [left; exact A|right].
  assert (4 <= 2 ^ d) by (replace 4 with (2 ^ 2) by ring; apply Rle_pow; [lra|exact Hd]). apply Rabs_le. lra.
Qed.
Example C30_nonvacuous : (1e30, -5) <> RtoC 0 /\ Cmod (1e30, -5) <= sqrt 2 * 2 ^ 1024.
Proof.
  split; [intros E; injection E; intros; lra|]. rewrite Cmod_alt. cbn [fst snd]. interval.
Qed.

(** ** C31: the recursion step.  [Li_neg m] is the polylogarithm of order -m: the rational function
    (z d/dz)^m z/(1-z) (Polyneg.v), which inside the unit disk is the sum of k^m z^k. *)
Theorem C31_spec_series m (z : C) : Cmod z < 1 ->
  Csums (fun k => Cmult (RtoC (INR (S k) ^ m)) (Cpow z (S k))) (Li_neg m z).
Proof. apply Li_neg_series. Qed.
Theorem C31_spec_theta m (z : C) : z <> RtoC 0 -> z <> RtoC 1 ->
  Cder (fun t => Li_neg m (Cmult (RtoC (exp (1 * t))) z)) 0 (Cmult (RtoC 1) (Li_neg (S m) z)) /\
  Li_neg 0 z = Cdiv z (Cminus (RtoC 1) z).
Proof. intros Z0 Z1. split; [apply Cder_Li_neg; assumption|]. unfold Li_neg. cbn [Qpoly peval]. ring. Qed.
Theorem C31_duplication m (s : C) : s <> RtoC 0 -> s <> RtoC 1 -> s <> RtoC (-1) ->
  Cmult (RtoC (Rpower 2 (IZR (- Z.of_nat m - 1)))) (Cplus (Li_neg m s) (Li_neg m (Copp s))) = Li_neg m (Cmult s s).
Proof.
  intros S0 S1 Sm. rewrite duplication by assumption.
  rewrite Rpower_Z by lra. replace (- Z.of_nat m - 1)%Z with (- Z.of_nat (S m))%Z by lia.
  rewrite powerRZ_neg', <- pow_powerRZ. rewrite RtoC_inv by (apply pow_nonzero; lra). rewrite Cmult_assoc, Cinv_l; [ring|].
  intros E. apply (f_equal fst) in E. cbn [fst RtoC] in E. revert E. apply pow_nonzero. lra.
Qed.
(** the code: wherever it recurses, exact sub-results give the exact result, and the errors of the
    two sub-results enter with the factor 2^(n-1) *)
Theorem C31_step e d fuel m (z : C) (n := (- Z.of_nat m)%Z) : (INT64_MIN + 4 <= n <= -2)%Z ->
  z <> RtoC 0 -> z <> RtoC 1 -> z <> RtoC (-1) ->
  (let nl := cnorm (NumR e) (Li_clog (NumR e) (ofC e z)) in
   ltb (NumR e) (mul (NumR e) (mul (NumR e) (mul (NumR e) (lit (NumR e) 4 0) (Li_PI (NumR e))) (Li_PI (NumR e))) (cnorm (NumR e) (ofC e z))) nl = false /\
   ltb (NumR e) nl (mul (NumR e) (mul (NumR e) (mul (NumR e) (mul (NumR e) (lit (NumR e) 512 (-3)) (lit (NumR e) 512 (-3))) (lit (NumR e) 4 0)) (Li_PI (NumR e))) (Li_PI (NumR e))) = false) ->
  exists s, Cmult s s = z /\ forall a b,
    Li (NumR e) d fuel n (ofC e s) = Val (ofC e a) -> Li (NumR e) d fuel n (ofC e (Copp s)) = Val (ofC e b) ->
    exists v, Li (NumR e) (S d) fuel n (ofC e z) = Val (ofC e v) /\
      Cmod (Cminus v (Li_neg m z)) <= Rpower 2 (IZR (n - 1)) * (Cmod (Cminus a (Li_neg m s)) + Cmod (Cminus b (Li_neg m (Copp s)))).
Proof.
  intros Hn Z0 Z1 Zm [T1 T2]. exists (Csqrt z). split; [apply Csqrt_sq; exact Z0|]. intros a b A B.
  destruct (ordinary_skip _ (ofC e z) (ordinary_exact e z Z0 Z1 Zm)) as (O1 & O2 & O3 & O4 & O5).
  assert (E : (n <? -1)%Z = true) by (apply Z.ltb_lt; lia).
  cbn [Li]; cbv zeta; rewrite O1, O2, O3, O4, O5, E, T1, T2.
  rewrite (i64_ok (n - 1)) by (un; lia). cbn [bind]. rewrite ofC_sqrt, ofC_opp, A, B. cbn [bind].
  rewrite ofC_add. cbn [nexp2 ofZ NumR lift1]. rewrite ofC_mul_rc. eexists. split; [reflexivity|].
  set (s := Csqrt z) in *. assert (SS : Cmult s s = z) by (apply Csqrt_sq; exact Z0).
  assert (S0 : s <> RtoC 0) by (apply Csqrt_neq; exact Z0).
  assert (S1 : s <> RtoC 1) by (intros F; apply Z1; rewrite <- SS, F; ring).
  assert (Sm : s <> RtoC (-1)) by (intros F; apply Z1; rewrite <- SS, F; unfold Cmult, RtoC; cbn; f_equal; ring).
  replace (n - 1)%Z with (- Z.of_nat m - 1)%Z by (unfold n; lia).
  rewrite <- SS at 1. rewrite <- (C31_duplication m s S0 S1 Sm).
  set (c := Rpower 2 _). assert (C0 : 0 < c) by apply exp_pos.
  replace (Cminus (Cmult (RtoC c) (Cplus a b)) (Cmult (RtoC c) (Cplus (Li_neg m s) (Li_neg m (Copp s)))))
    with (Cmult (RtoC c) (Cplus (Cminus a (Li_neg m s)) (Cminus b (Li_neg m (Copp s))))) by ring.
  rewrite Cmod_mult, Cmod_R, Rabs_pos_eq by lra. apply Rmult_le_compat_l; [lra|]. apply Cmod_triangle.
Qed.
