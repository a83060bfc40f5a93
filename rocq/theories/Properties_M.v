(** * C32 (continued): the expansions about z = 1 *)
From Coq Require Import ZArith Reals List Bool Lra Lia Psatz.
From Coquelicot Require Import Coquelicot.
From Flocq Require Import Core.Raux.
From Interval Require Import Tactic.
From Verif Require Import Num NumR Outcome Spec Eval_R Consts Model_Tables Model_Zeta Model_LiC Model_Li Proof_Int Proof_LiInt Cplx Clog_series Polylog Polylog_series Zeta_num Bern Harmonic Properties_F Properties_G Properties_H Properties_I Rest Unity.
Import ListNotations.
Local Open Scope R_scope.

(** The arithmetic is [NumQ e q]: exact real (and complex) arithmetic in which two numbers "compare equal" according
    to an arbitrary test [q] that is only required to be exact against zero.  (With the exact test the loops would
    never see two equal partial sums; in floating point they do.)  Whatever the test, the result is a partial sum of

      zeta(n) + zeta(n-1) L + ... + (H_{n-1} - log(-L)) L^{n-1}/(n-1)! + zeta(0) L^n/n! + zeta(-1) L^{n+1}/(n+1)! + ...

    with L = log z, or the loop has run past the end of the zeta table and the result is not a number.
    [zc] are the zeta values of the code, [zacc] says how close they are to the true ones. *)
Definition near_log (z v : C) : Prop :=
  exists w, is_Clog z w /\ fst v = fst w /\ Rabs (snd v - snd w) <= 2.5e-16 /\ (snd z <> 0 \/ 0 < fst z -> v = w).
Lemma near_log_ex e (z : C) : z <> RtoC 0 -> exists v, Li_clog (NumR e) (ofC e z) = ofC e v /\ near_log z v.
Proof. intros H. destruct (C24_Li_clog e z H) as (w & v & A & B & C & D & E). exists v. split; [exact A|]. exists w. auto. Qed.
Lemma near_log_neq z v : z <> RtoC 1 -> near_log z v -> v <> RtoC 0.
Proof.
  intros H (w & W & A & B & D) E. subst v. cbn [fst snd RtoC] in *. destruct W as [X R].
  destruct (Req_dec (snd z) 0) as [S0|S0]; [|].
  - destruct (Rlt_dec 0 (fst z)) as [P|P].
    + rewrite <- (D (or_intror P)) in X. apply H. rewrite <- X. unfold Cexp, RtoC. cbn [fst snd]. rewrite exp_0, cos_0, sin_0. f_equal; ring.
    + assert (F : fst z < 0 \/ fst z = 0) by lra. rewrite <- X in F, S0. unfold Cexp in F, S0. cbn [fst snd] in F, S0. rewrite <- A, exp_0, Rmult_1_l in F, S0.
      assert (C : 0 < cos (snd w)).
      { apply cos_gt_0; apply Rabs_le_between in B; pose proof PI2_1; lra. } lra.
  - rewrite <- (D (or_introl S0)) in X. apply H. rewrite <- X. unfold Cexp, RtoC. cbn [fst snd]. rewrite exp_0, cos_0, sin_0. f_equal; ring.
Qed.
Lemma harm_code e (n : nat) : (1 <= n)%nat -> (Z.of_nat n < INT64_MAX)%Z -> exists h, harmonic (NumR e) (Z.of_nat n) = Val (Some h) /\ Rabs (h - harm n) <= 6 / 10 ^ 18.
Proof.
  intros H I. destruct (Nat.lt_ge_cases n 20) as [C|C].
  - exists (harm n). split; [apply C08_harmonic_small_exact; lia|]. rewrite Rminus_eq_0, Rabs_R0. lra.
  - apply C08_harmonic_large_exact; assumption.
Qed.

Theorem C32_unity_pos_partial_sum e q fuel (n : nat) (z : C) w : zero_exact q -> (2 <= n)%nat -> (Z.of_nat n <= 3037000497)%Z -> z <> RtoC 0 -> z <> RtoC 1 ->
  Li_unity_pos (NumQ e q) fuel (Z.of_nat n) (ofC e z) = Val w ->
  exists zc h v u, zacc zc /\ Rabs (h - harm (n - 1)) <= 6 / 10 ^ 18 /\ near_log z v /\ near_log (Copp v) u /\
    ((exists K, (n + 2 <= K <= n + 261)%nat /\
        w = ofC e (Csum (fun j => Cmult (if (j =? n - 1)%nat then Cminus (RtoC h) u else RtoC (zc (Z.of_nat n - Z.of_nat j)%Z)) (Cdiv (Cpow v j) (RtoC (INR (fact j))))) K))
     \/ w = (None, None)).
Proof.
  intros Hq Hn Hb Z0 Z1 H. destruct (zeta_code e) as (zc & ZV & ZA). destruct (harm_code e (n - 1) ltac:(lia) ltac:(unfold INT64_MAX; lia)) as (h & HH & HA).
  destruct (near_log_ex e z Z0) as (v & V & NV). pose proof (near_log_neq z v Z1 NV) as V0.
  destruct (near_log_ex e (Copp v)) as (u & U & NU). { intros E. apply V0. replace v with (Copp (Copp v)) by ring. rewrite E. ring. }
  exists zc, h, v, u. do 4 (split; [assumption|]).
  destruct (unity_pos_ok e q Hq zc h n v u Hn) with (fuel := fuel) (z := z) (w := w) as [(K & HK & E) | (A & B)]; try assumption.
  - intros m M. apply ZV. unfold INT64_MAX. lia.
  - apply ZA.
  - replace (Z.of_nat n - 1)%Z with (Z.of_nat (n - 1)) by lia. exact HH.
  - left. exists K. split; [exact HK|exact E].
  - right. destruct w as [a b]. cbn [fst snd] in A, B. subst. reflexivity.
Qed.
(** negative order -m:  m! (-L)^{-m-1} + zeta(-m) + zeta(-m-1) L + zeta(-m-2) L^2/2! + ...; here [f k] is the code's 1/k! *)
Theorem C32_unity_neg_partial_sum e q fuel (m : nat) (z : C) w : zero_exact q -> (1 <= m <= 259)%nat -> z <> RtoC 0 -> z <> RtoC 1 ->
  Li_unity_neg (NumQ e q) fuel (- Z.of_nat m) (ofC e z) = Val w ->
  exists zc f v, zacc zc /\ f 0%nat = 1 /\ (forall k, (k <= 177)%nat -> Rabs (f k - inv_fact k) <= 6 / 10 ^ 17 * inv_fact k) /\ (forall k, (178 <= k)%nat -> f k = 0) /\ near_log z v /\
    exists K, (1 <= K <= 262)%nat /\
      w = ofC e (Cplus (Cmult (RtoC (INR (fact m))) (Cinv (Cpow (Copp v) (S m)))) (Csum (fun k => Cmult (RtoC (zc (- Z.of_nat m - Z.of_nat k)%Z * f k)) (Cpow v k)) K)).
Proof.
  intros Hq Hm Z0 Z1 H. destruct (zeta_code e) as (zc & ZV & ZA). destruct (code_fac e) as (f & F & FA & FB).
  destruct (near_log_ex e z Z0) as (v & V & NV). pose proof (near_log_neq z v Z1 NV) as V0.
  assert (F0 : f 0%nat = 1).
  { pose proof (F 0%nat) as E. change (Z.of_nat 0) with 0%Z in E. destruct (inv_fac_table (NumR e) 0 ltac:(cbn; lia)) as (d & A & B). rewrite B in E. injection E as <-.
    vm_compute in A. injection A as <-. unfold litR. cbn. lra. }
  exists zc, f, v. do 5 (split; [assumption|]).
  apply (unity_neg_ok e q Hq zc f m v Hm) with (fuel := fuel) (z := z) (w := w); try assumption.
  - intros k K. apply ZV. unfold INT64_MAX. lia.
  - apply ZA.
Qed.
(** for positive order the loop stops too, whatever the arithmetic: it runs out of 64-bit indices *)
Lemma pos_loop2_stops (N : num) n l2 : forall fuel j s p, (INT64_MAX - j <= Z.of_nat fuel)%Z -> (1 <= fuel)%nat -> Li_unity_pos_loop2 N fuel j n l2 s p <> NoFuel.
Proof.
  induction fuel as [|f IH]; intros j s p Hf F1; [lia|]. cbn [Li_unity_pos_loop2]. destruct (Z.ltb_spec j (INT64_MAX - 2)); [|discriminate].
  destruct (i64 ((j - 1) * j)) eqn:E1; cbn [bind]; try discriminate. 2:{ unfold i64 in E1. destruct (_ && _)%bool; discriminate. }
  destruct (i64 (n - j)) as [nj| |] eqn:E2; cbn [bind]; try discriminate. 2:{ unfold i64 in E2. destruct (_ && _)%bool; discriminate. }
  destruct (zeta N nj) as [zz| |] eqn:E3; cbn [bind]; try discriminate. 2:{ exfalso. revert E3. apply zeta_fuel. }
  cbv zeta. destruct (ceqb _ _ _); [discriminate|]. destruct (i64 (j + 2)) as [j'| |] eqn:E4; cbn [bind]; try discriminate. 2:{ unfold i64 in E4. destruct (_ && _)%bool; discriminate. }
  unfold i64 in E4. destruct (_ && _)%bool; [|discriminate]. injection E4 as <-. apply IH; lia.
Qed.

Lemma pos_loop1_stops (N : num) n l : forall cnt j s p, Li_unity_pos_loop1 N cnt j n l s p <> NoFuel.
Proof.
  induction cnt as [|c IH]; intros j s p; cbn [Li_unity_pos_loop1]; [discriminate|]. cbv zeta. destruct (zeta N (n - j)) as [v| |] eqn:E; cbn [bind]; [apply IH|discriminate|].
  exfalso. revert E. apply zeta_fuel.
Qed.
Lemma i64_stops n : i64 n <> NoFuel. Proof. unfold i64. destruct (_ && _)%bool; discriminate. Qed.
Theorem C32_unity_pos_stops (N : num) fuel n z : (2 <= n)%Z -> (2 ^ 63 <= Z.of_nat fuel)%Z -> Li_unity_pos N fuel n z <> NoFuel.
Proof.
  intros Hn Hf. unfold Li_unity_pos. cbv zeta.
  assert (B : forall A B (o : out A) (f : A -> out B), o <> NoFuel -> (forall a, o = Val a -> f a <> NoFuel) -> bind o f <> NoFuel).
  { intros A B [a| |] f H1 H2; cbn [bind]; [apply H2; reflexivity|discriminate|contradiction]. }
  apply B; [apply zeta_fuel|]. intros zn _. apply B; [apply i64_stops|]. intros nm1 _. apply B; [apply pos_loop1_stops|]. intros [s p] _.
  apply B; [apply harmonic_fuel|]. intros h _. apply B; [apply zeta_fuel|]. intros z0 _. apply B; [apply i64_stops|]. intros np1 _. apply B; [apply zeta_fuel|]. intros zm1 _. apply B; [apply i64_stops|]. intros np3 E.
  unfold i64 in E. destruct (_ && _)%bool; [|discriminate]. injection E as <-. apply pos_loop2_stops; unfold INT64_MAX; lia.
Qed.
(** non-vacuity: such equality tests exist (the exact one, and one with a tolerance), and both expansions return *)
Definition q_tol : option R -> option R -> bool := fun a b =>
  match a, b with Some x, Some y => if Req_EM_T y 0 then Reqb x 0 else Rleb (Rabs (x - y)) (Rabs y / 2 ^ 53) | _, _ => false end.
Lemma q_tol_exact : zero_exact q_tol.
Proof. intros x. unfold q_tol. destruct (Req_EM_T 0 0); [reflexivity|contradiction]. Qed.
Lemma q_exact e : zero_exact (eqb (NumR e)).
Proof. intros x. reflexivity. Qed.
Example C32_unity_nonvacuous : zero_exact q_tol /\ (1, 1 / 2) <> RtoC 1 /\ (1, 1 / 2) <> RtoC 0 /\
  exists fuel w, Li_unity_neg (NumQ eps_d (eqb (NumR eps_d))) fuel (-3) (ofC eps_d (1, 1 / 2)) = Val w.
Proof.
  split; [apply q_tol_exact|]. split; [intros E; apply (f_equal snd) in E; cbn in E; lra|]. split; [intros E; apply (f_equal snd) in E; cbn in E; lra|].
  exists 131%nat. exact (unity_neg_stopsR eps_d 131 (-3) (ofC eps_d (1, 1 / 2)) ltac:(unfold INT64_MIN; lia) ltac:(lia)).
Qed.
