(** * Li(n,z) for orders n >= 7 against the principal branch, in exact arithmetic with an arbitrary stopping test *)
From Coq Require Import ZArith Reals List Bool Lra Lia Psatz.
From Coquelicot Require Import Coquelicot.
From Flocq Require Import Core.Raux.
From Interval Require Import Tactic.
From Verif Require Import Num NumR Outcome Spec Eval_R Consts Model_Tables Model_Zeta Model_LiC Model_Li Proof_Int Proof_LiInt Cplx Proof_Horner Clog_series Chain Polylog Polylog_series Clausen Zeta_num Bern Bern_num Harmonic Properties_F Properties_G Properties_H Properties_I Rest Unity Properties_K Properties_M Ccalc CLi CLi_disc CLi_inv Cpoly CLi_unity CLi_exp CLi_gen CLi_acc.
Import ListNotations.
Local Open Scope R_scope.

(** the test that stops the loops: exact against 0, and two numbers it calls equal differ by at most t relatively
    (in double precision t = 2^-53) *)
Definition stop_test (q : option R -> option R -> bool) (t : R) : Prop :=
  zero_exact q /\ (forall x y, q (Some x) (Some y) = true -> Rabs (x - y) <= t * Rabs y).
Lemma ceqb_tol e q t (a b : C) : stop_test q t -> 0 <= t -> ceqb (NumQ e q) (ofC e a) (ofC e b) = true -> Cmod (Cminus a b) <= t * Cmod b.
Proof.
  intros [_ T] T0 H. unfold ceqb in H. apply andb_prop in H. destruct H as [H1 H2]. cbn [fst snd ofC] in H1, H2.
  apply T in H1. apply T in H2. destruct a as [a1 a2], b as [b1 b2]. cbn [fst snd] in *.
  rewrite !Cmod_alt. cbn [fst snd Cminus Cplus Copp]. rewrite <- (sqrt_square t) by exact T0. rewrite <- sqrt_mult_alt by (apply Rmult_le_pos; exact T0). apply sqrt_le_1_alt.
  assert (S : forall x y, Rabs (x - y) <= t * Rabs y -> (x + - y) * (x + - y) <= t * t * (y * y)).
  { intros x y K. pose proof (Rmult_le_compat _ _ _ _ (Rabs_pos _) (Rabs_pos _) K K) as Q. rewrite <- Rabs_mult, (Rabs_pos_eq ((x - y) * (x - y))) in Q by apply (Rle_0_sqr (x - y)).
    replace (t * Rabs y * (t * Rabs y)) with (t * t * (Rabs y * Rabs y)) in Q by ring. rewrite <- Rabs_mult, (Rabs_pos_eq (y * y)) in Q by apply (Rle_0_sqr y). exact Q. }
  pose proof (S _ _ H1). pose proof (S _ _ H2). lra.
Qed.

(** ** the expansion about 1 with the reason why the loop stopped *)
Section P.
Variable e : R.
Variable q : option R -> option R -> bool.
Hypothesis Hq : zero_exact q.
Notation N := (NumQ e q).
Variables (zc : Z -> R) (h : R) (n : nat) (v u : C).
Hypothesis Hn : (2 <= n)%nat.
Hypothesis Hz : zvals e zc (Z.of_nat n).
Hypothesis Hze : forall m, (m < 0)%Z -> Z.even m = true -> zc m = 0.
Hypothesis Hh : harmonic (NumR e) (Z.of_nat n - 1) = Val (Some h).
Hypothesis Hnb : (Z.of_nat n <= 3037000497)%Z.
Lemma loop2_stop fuel : forall j w, (n + 3 <= j <= n + 261)%nat -> Z.even (Z.of_nat n - Z.of_nat j) = false ->
  Li_unity_pos_loop2 N fuel (Z.of_nat j) (Z.of_nat n) (ofC e (Cmult v v)) (ofC e (Csum (uterm zc h n v u) (j - 1))) (ofC e (pw v (j - 2))) = Val w ->
  (exists m, (2 <= m <= 130)%nat /\ w = ofC e (Csum (uterm zc h n v u) (n + 2 * m)) /\ ceqb N (ofC e (Csum (uterm zc h n v u) (n + 2 * m))) (ofC e (Csum (uterm zc h n v u) (n + 2 * m - 2))) = true) \/ (fst w = None /\ snd w = None).
Proof.
  induction fuel as [|f IH]; intros j w Hj Hp H; [discriminate|]. cbn [Li_unity_pos_loop2] in H.
  destruct (Z.ltb_spec (Z.of_nat j) (INT64_MAX - 2)) as [J|J]; [|exfalso; unfold INT64_MAX in J; lia].
  destruct (i64 ((Z.of_nat j - 1) * Z.of_nat j)) as [jj| |] eqn:JJ; cbn [bind] in H; try discriminate H. assert (jj = (Z.of_nat j - 1) * Z.of_nat j)%Z as -> by (unfold i64 in JJ; destruct (_ && _)%bool; [injection JJ as <-; reflexivity|discriminate]).
  cbv zeta in H. rewrite i64_ok in H by (unfold INT64_MIN, INT64_MAX; lia). cbn [bind] in H.
  change (zeta N) with (zeta (NumR e)) in H.
  destruct (Nat.eq_dec j (n + 261)) as [JE|JE].
  - right. rewrite zeta_none in H by (try (rewrite even_Zeven; exact Hp); unfold is_int64, INT64_MIN, INT64_MAX; lia). cbn [bind] in H.
    assert (A : forall s t, fst (cadd N s (cmul_rc N None t)) = None /\ snd (cadd N s (cmul_rc N None t)) = None).
    { intros [[a|] [b|]] [[c|] [d|]]; split; reflexivity. }
    match type of H with (if ?b then _ else _) = _ => destruct b end; [injection H as <-; apply A|].
    rewrite i64_ok in H by (unfold INT64_MIN, INT64_MAX; lia). cbn [bind] in H. eapply (loop2_none e q zc n v Hn Hze); [| | |exact H]; try apply A. lia.
  - rewrite Hz in H by lia. cbn [bind] in H.
    assert (P2 : cmul N (ofC e (pw v (j - 2))) (cdiv_cr N (ofC e (Cmult v v)) (ofZ N ((Z.of_nat j - 1) * Z.of_nat j))) = ofC e (pw v j)).
    { change (cdiv_cr N (ofC e (Cmult v v)) (ofZ N ((Z.of_nat j - 1) * Z.of_nat j))) with (cdiv_cr (NumR e) (ofC e (Cmult v v)) (Some (IZR ((Z.of_nat j - 1) * Z.of_nat j)))).
      rewrite ofC_div_cr by (apply not_0_IZR; nia). change (cmul N) with (cmul (NumR e)). rewrite ofC_mul. f_equal.
      replace j with (S (S (j - 2))) at 4 by lia. rewrite <- !(pw_S n v Hn). replace (IZR ((Z.of_nat j - 1) * Z.of_nat j)) with (INR (S (j - 2)) * INR (S (S (j - 2)))).
      - rewrite RtoC_mult. field. split; intros E; apply (f_equal fst) in E; cbn [fst RtoC] in E; (apply not_0_INR in E; [exact E|lia]).
      - rewrite mult_IZR, !INR_IZR_INZ. f_equal; f_equal; lia. }
    rewrite P2 in H. change (cadd N ?a (cmul_rc N ?r ?b)) with (cadd (NumR e) a (cmul_rc (NumR e) r b)) in H. rewrite ofC_mul_rc, ofC_add in H.
    assert (SM : Cplus (Csum (uterm zc h n v u) (j - 1)) (Cmult (RtoC (zc (Z.of_nat n - Z.of_nat j)%Z)) (pw v j)) = Csum (uterm zc h n v u) (S j)).
    { replace (Csum (uterm zc h n v u) (S j)) with (Cplus (Csum (uterm zc h n v u) j) ((uterm zc h n v u) j)) by reflexivity. replace (Csum (uterm zc h n v u) j) with (Csum (uterm zc h n v u) (j - 1)).
      - f_equal. unfold uterm. destruct (Nat.eqb_spec j (n - 1)); [lia|]. reflexivity.
      - replace j with (S (j - 1)) at 2 by lia. cbn [Csum]. rewrite (zc_even zc h n v u Hn Hze (j - 1)) by (try lia; replace (Z.of_nat n - Z.of_nat (j - 1))%Z with (Z.succ (Z.of_nat n - Z.of_nat j))%Z by lia; rewrite Z.even_succ, <- Z.negb_even, Hp; reflexivity). ring. }
    rewrite SM in H.
    match type of H with (if ?b then _ else _) = _ => destruct b eqn:CE end.
    + injection H as <-. left. assert (JM : exists m, (j = n + 2 * m - 1 /\ 2 <= m)%nat).
      { assert (OD : Z.odd (Z.of_nat j - Z.of_nat n) = true) by (rewrite <- Z.negb_even, <- Z.even_opp; replace (- (Z.of_nat j - Z.of_nat n))%Z with (Z.of_nat n - Z.of_nat j)%Z by lia; rewrite Hp; reflexivity).
        apply Z.odd_spec in OD. destruct OD as [k Ek]. exists (Z.to_nat (k + 1)). lia. }
      destruct JM as (m & Jm & M2). exists m. replace (n + 2 * m)%nat with (S j) by lia. split; [lia|]. split; [reflexivity|]. replace (S j - 2)%nat with (j - 1)%nat by lia. exact CE.
    + rewrite i64_ok in H by (unfold INT64_MIN, INT64_MAX; lia). cbn [bind] in H. replace (Z.of_nat j + 2)%Z with (Z.of_nat (j + 2)) in H by lia.
      apply (IH (j + 2)%nat); [| |replace (j + 2 - 1)%nat with (S j) by lia; replace (j + 2 - 2)%nat with j by lia; exact H].
      * assert (j <> n + 260)%nat; [|lia]. intros ->. revert Hp. replace (Z.of_nat n - Z.of_nat (n + 260))%Z with (-260)%Z by lia. discriminate.
      * replace (Z.of_nat n - Z.of_nat (j + 2))%Z with ((Z.of_nat n - Z.of_nat j) + (-1) * 2)%Z by lia. rewrite Z.mul_comm, Z.even_add_mul_2. exact Hp.
Qed.
Lemma unity_pos_stop fuel z w : Li_clog (NumR e) (ofC e z) = ofC e v -> Li_clog (NumR e) (ofC e (Copp v)) = ofC e u ->
  Li_unity_pos N fuel (Z.of_nat n) (ofC e z) = Val w ->
  (exists m, (2 <= m <= 130)%nat /\ w = ofC e (Csum (uterm zc h n v u) (n + 2 * m)) /\ ceqb N (ofC e (Csum (uterm zc h n v u) (n + 2 * m))) (ofC e (Csum (uterm zc h n v u) (n + 2 * m - 2))) = true) \/ (fst w = None /\ snd w = None).
Proof.
  intros V U H. unfold Li_unity_pos in H. cbv zeta in H. rewrite (clogQ e q Hq), V in H. change (zeta N) with (zeta (NumR e)) in H. rewrite Hz in H by lia. cbn [bind] in H.
  rewrite i64_ok in H by (unfold INT64_MIN, INT64_MAX; lia). cbn [bind] in H.
  assert (S0 : (Some (zc (Z.of_nat n)), lit (NumR e) 0 0) = ofC e (Csum (uterm zc h n v u) 1)).
  { rewrite lit_int. cbn [Csum]. unfold uterm. destruct (Nat.eqb_spec 0 (n - 1)); [lia|].
    replace (Z.of_nat n - Z.of_nat 0)%Z with (Z.of_nat n) by lia. cbn [Cpow fact INR]. unfold ofC. apply (f_equal2 pair); f_equal; unfold Cdiv, Cinv, Cmult, Cplus, RtoC; cbn [fst snd]; field. }
  assert (P0 : (lit (NumR e) 1 0, lit (NumR e) 0 0) = ofC e (pw v 0)).
  { rewrite !lit_int. unfold pw. cbn [Cpow fact INR]. unfold ofC. apply (f_equal2 pair); f_equal; unfold Cdiv, Cinv, Cmult, Cplus, RtoC; cbn [fst snd]; field. }
  change (@pair (car N) (car N) (lit N 1 0) (lit N 0 0)) with (@pair (car (NumR e)) (car (NumR e)) (lit (NumR e) 1 0) (lit (NumR e) 0 0)) in H. rewrite P0 in H.
  match type of H with context [Li_unity_pos_loop1 N ?a ?b ?c ?d ?s ?p] => replace s with (ofC e (Csum (uterm zc h n v u) 1) : cpx N) in H by (symmetry; exact S0) end. 
  replace (Z.to_nat (Z.of_nat n - 1 - 1)) with (n - 2)%nat in H by lia.
  match type of H with context [Li_unity_pos_loop1 N ?a ?b ?c ?d ?s ?p] => replace (Li_unity_pos_loop1 N a b c d s p) with (Val (ofC e (Csum (uterm zc h n v u) (n - 1)), ofC e (pw v (n - 2))) : out (cpx N * cpx N)) in H by (symmetry; exact (loop1_ok e q zc h n v u Hn Hz Hze (n - 2) 0 ltac:(lia))) end. cbn [bind] in H.
  rewrite (step1 e q n v Hn (n - 2)) in H by lia. replace (S (n - 2)) with (n - 1)%nat in H by lia.
  change (harmonic N) with (harmonic (NumR e)) in H. rewrite Hh in H. cbn [bind] in H.
  change (copp N (ofC e v)) with (copp (NumR e) (ofC e v)) in H. rewrite ofC_opp, (clogQ e q Hq), U in H.
  change (cadd N ?a (cmul N (csub_rc N ?r ?b) ?c)) with (cadd (NumR e) a (cmul (NumR e) (csub_rc (NumR e) r b) c)) in H.
  rewrite ofC_sub_rc, ofC_mul, ofC_add in H.
  assert (S1 : Cplus (Csum (uterm zc h n v u) (n - 1)) (Cmult (Cminus (RtoC h) u) (pw v (n - 1))) = Csum (uterm zc h n v u) n).
  { replace (Csum (uterm zc h n v u) n) with (Csum (uterm zc h n v u) (S (n - 1))) by (f_equal; lia). change (Csum (uterm zc h n v u) (S (n - 1))) with (Cplus (Csum (uterm zc h n v u) (n - 1)) ((uterm zc h n v u) (n - 1))). rewrite (uterm_at zc h n v u). reflexivity. }
  rewrite S1 in H. rewrite (step1 e q n v Hn (n - 1)) in H by lia. replace (S (n - 1)) with n in H by lia.
  rewrite Hz in H by lia. cbn [bind] in H. 
  rewrite (addmul e q) in H.
  assert (S2 : Cplus (Csum (uterm zc h n v u) n) (Cmult (RtoC (zc 0%Z)) (pw v n)) = Csum (uterm zc h n v u) (S n)).
  { change (Csum (uterm zc h n v u) (S n)) with (Cplus (Csum (uterm zc h n v u) n) ((uterm zc h n v u) n)). rewrite (uterm_ne zc h n v u n) by lia. rewrite Z.sub_diag. reflexivity. }
  rewrite S2 in H. rewrite i64_ok in H by (unfold INT64_MIN, INT64_MAX; lia). cbn [bind] in H.
  rewrite (step1 e q n v Hn n) in H by lia. rewrite Hz in H by lia. cbn [bind] in H.
  rewrite (addmul e q) in H.
  assert (S3 : Cplus (Csum (uterm zc h n v u) (S n)) (Cmult (RtoC (zc (-1)%Z)) (pw v (S n))) = Csum (uterm zc h n v u) (S (S n))).
  { change (Csum (uterm zc h n v u) (S (S n))) with (Cplus (Csum (uterm zc h n v u) (S n)) ((uterm zc h n v u) (S n))). rewrite (uterm_ne zc h n v u (S n)) by lia.
    replace (Z.of_nat n - Z.of_nat (S n))%Z with (-1)%Z by lia. reflexivity. }
  rewrite S3 in H. rewrite i64_ok in H by (unfold INT64_MIN, INT64_MAX; lia). cbn [bind] in H.
  replace (Z.of_nat n + 3)%Z with (Z.of_nat (n + 3)) in H by lia. change (cmul N (ofC e v) (ofC e v)) with (cmul (NumR e) (ofC e v) (ofC e v)) in H. rewrite ofC_mul in H.
  apply (loop2_stop fuel (n + 3)); [lia|replace (Z.of_nat n - Z.of_nat (n + 3))%Z with (-3)%Z by lia; reflexivity|].
  replace (n + 3 - 1)%nat with (S (S n)) by lia. replace (n + 3 - 2)%nat with (S n) by lia. exact H.
Qed.
End P.

(** ** tails *)
Lemma geo_tail (f : nat -> C) (L : C) k r : 0 <= r < 1 -> (forall i, (k <= i)%nat -> Cmod (f (S i)) <= r * Cmod (f i)) -> 
  (forall e, 0 < e -> exists K0, forall K, (K0 <= K)%nat -> Cmod (Cminus L (Csum f K)) < e) ->
  Cmod (Cminus L (Csum f (S k))) <= Cmod (f k) * (r / (1 - r)).
Proof.
  intros Hr D L0. assert (T : forall i, Cmod (Cminus (Csum f (S k + i)) (Csum f (S k))) <= Cmod (f k) * (r / (1 - r)) - Cmod (f (k + i)%nat) * (r / (1 - r))).
  { induction i as [|i IH]; [rewrite !Nat.add_0_r; replace (Cminus (Csum f (S k)) (Csum f (S k))) with (RtoC 0) by ring; rewrite Cmod_0; lra|].
    replace (S k + S i)%nat with (S (S (k + i))) by lia. change (Csum f (S (S (k + i)))) with (Cplus (Csum f (S (k + i))) (f (S (k + i)))). replace (S k + i)%nat with (S (k + i)) in IH by lia.
    replace (Cminus (Cplus (Csum f (S (k + i))) (f (S (k + i)))) (Csum f (S k))) with (Cplus (Cminus (Csum f (S (k + i))) (Csum f (S k))) (f (S (k + i)))) by ring.
    eapply Rle_trans; [apply Cmod_triangle|]. pose proof (D (k + i)%nat ltac:(lia)) as Q. replace (k + S i)%nat with (S (k + i)) by lia.
    assert (E : Cmod (f (S (k + i))) * (1 + r / (1 - r)) <= Cmod (f (k + i)%nat) * (r / (1 - r))).
    { replace (1 + r / (1 - r)) with (/ (1 - r)) by (field; lra). unfold Rdiv. rewrite <- Rmult_assoc. apply Rmult_le_compat_r; [left; apply Rinv_0_lt_compat; lra|]. lra. }
    lra. }
  apply Rnot_lt_le. intros LT. destruct (L0 (Cmod (Cminus L (Csum f (S k))) - Cmod (f k) * (r / (1 - r))) ltac:(lra)) as (K0 & HK). specialize (HK (S k + K0)%nat ltac:(lia)). specialize (T K0).
  assert (0 <= Cmod (f (k + K0)%nat) * (r / (1 - r))) by (apply Rmult_le_pos; [apply Cmod_ge_0|apply Rdiv_le_0_compat; lra]).
  pose proof (Cmod_triangle (Cminus L (Csum f (S k + K0))) (Cminus (Csum f (S k + K0)) (Csum f (S k)))) as TR.
  replace (Cplus (Cminus L (Csum f (S k + K0))) (Cminus (Csum f (S k + K0)) (Csum f (S k)))) with (Cminus L (Csum f (S k))) in TR by ring. lra.
Qed.
Lemma pterm_mod n z k : Cmod (pterm n z k) = Cmod z ^ S k / INR (S k) ^ n.
Proof. unfold pterm. pose proof (lt_0_INR (S k) ltac:(lia)). rewrite Cmod_div by (apply RtoC_neq, pow_nonzero; lra). rewrite Cpow_mod, Cmod_R, Rabs_pos_eq by (apply pow_le; lra). reflexivity. Qed.
Lemma disc_tail n z k : (1 <= n)%nat -> Cmod z < 1 -> Cmod (Cminus (CLi n z) (Csum (pterm n z) (S k))) <= Cmod (pterm n z k) * (Cmod z / (1 - Cmod z)).
Proof.
  intros Hn Hz. pose proof (Cmod_ge_0 z) as Z0. apply geo_tail; [lra| |].
  - intros i _. rewrite !pterm_mod. pose proof (lt_0_INR (S i) ltac:(lia)) as I1. pose proof (le_INR (S i) (S (S i)) ltac:(lia)) as I2.
    pose proof (pow_incr (INR (S i)) (INR (S (S i))) n ltac:(lra)) as P. pose proof (pow_lt (INR (S i)) n I1) as P1. pose proof (pow_le (Cmod z) (S i) Z0) as Q.
    change (Cmod z ^ S (S i)) with (Cmod z * Cmod z ^ S i). unfold Rdiv. rewrite Rmult_assoc. apply Rmult_le_compat_l; [exact Z0|]. apply Rmult_le_compat_l; [exact Q|]. apply Rinv_le_contravar; assumption.
  - intros ep He. destruct (pow_lt_1_zero (Cmod z) ltac:(rewrite Rabs_pos_eq; lra) (ep * (1 - Cmod z) / 2) ltac:(apply Rdiv_lt_0_compat; [apply Rmult_lt_0_compat; lra|lra])) as (K0 & HK).
    exists K0. intros K HKK. eapply Rle_lt_trans; [apply disc_remainder; assumption|]. specialize (HK (S K) ltac:(lia)). rewrite Rabs_pos_eq in HK by (apply pow_le; exact Z0).
    apply (Rmult_lt_reg_r ((1 - Cmod z) / 2)); [lra|]. replace (2 * (Cmod z ^ S K / (1 - Cmod z)) * ((1 - Cmod z) / 2)) with (Cmod z ^ S K) by (field; lra). lra.
Qed.
Lemma psum_small n z K : (7 <= n)%nat -> Cmod z <= 3 / 4 -> Cmod (Csum (pterm n z) K) <= 1.03 * Cmod z.
Proof.
  intros Hn Hz. pose proof (Cmod_ge_0 z) as Z0.
  assert (B : forall K, Cmod (Csum (pterm n z) (S K)) <= Cmod z + Cmod z * Cmod z / 2 ^ 7 * ((1 - Cmod z ^ K) / (1 - Cmod z))).
  { induction K0 as [|k IH].
    - cbn [Csum pow]. replace (Cplus (RtoC 0) (pterm n z 0)) with (pterm n z 0) by ring. rewrite pterm_mod. cbn [INR]. rewrite pow1. cbn [pow]. unfold Rdiv. rewrite Rinv_1. lra.
    - change (Csum (pterm n z) (S (S k))) with (Cplus (Csum (pterm n z) (S k)) (pterm n z (S k))). eapply Rle_trans; [apply Cmod_triangle|].
      assert (T : Cmod (pterm n z (S k)) <= Cmod z * Cmod z / 2 ^ 7 * Cmod z ^ k).
      { rewrite pterm_mod. assert (I2 : 2 <= INR (S (S k))) by (rewrite !S_INR; pose proof (pos_INR k); lra).
        assert (P2 : 2 ^ 7 <= INR (S (S k)) ^ n). { apply Rle_trans with (2 ^ n); [apply Rle_pow; [lra|exact Hn]|apply pow_incr; lra]. }
        pose proof (pow_le (Cmod z) k Z0). cbn [pow] in *. unfold Rdiv. replace (Cmod z * Cmod z * / (2 * (2 * (2 * (2 * (2 * (2 * (2 * 1))))))) * Cmod z ^ k) with (Cmod z * (Cmod z * Cmod z ^ k) * / (2 * (2 * (2 * (2 * (2 * (2 * (2 * 1)))))))) by ring.
        apply Rmult_le_compat_l; [repeat apply Rmult_le_pos; lra|]. apply Rinv_le_contravar; lra. }
      replace ((1 - Cmod z ^ S k) / (1 - Cmod z)) with ((1 - Cmod z ^ k) / (1 - Cmod z) + Cmod z ^ k) by (cbn [pow]; field; lra). lra. }
  destruct K as [|K]; [cbn [Csum]; rewrite Cmod_0; lra|]. eapply Rle_trans; [apply B|].
  assert (Q : (1 - Cmod z ^ K) / (1 - Cmod z) <= 4). { apply Rle_div_l; [lra|]. pose proof (pow_le (Cmod z) K Z0). lra. }
  assert (Z2 : 0 <= Cmod z * Cmod z / 2 ^ 7) by (apply Rdiv_le_0_compat; [apply Rmult_le_pos; lra|lra]).
  apply Rle_trans with (Cmod z + Cmod z * Cmod z / 2 ^ 7 * 4); [apply Rplus_le_compat_l, Rmult_le_compat_l; assumption|].
  assert (Cmod z * Cmod z <= 3 / 4 * Cmod z) by (apply Rmult_le_compat_r; lra). lra.
Qed.

(** ** the power series *)
Section Ser.
Variable e : R.
Variable q : option R -> option R -> bool.
Variable t : R.
Hypothesis Hq : stop_test q t.
Hypothesis Ht : 0 <= t <= / 100.
Notation N := (NumQ e q).
Lemma polyterm_pterm n z k : polyterm (Z.of_nat n) z k = pterm n z k.
Proof.
  unfold polyterm, pterm. pose proof (lt_0_INR (S k) ltac:(lia)). unfold Cdiv. rewrite <- RtoC_inv by (apply pow_nonzero; lra).
  replace (powerRZ (INR (S k)) (- Z.of_nat n)) with (/ INR (S k) ^ n); [apply Cmult_comm|].
  rewrite powerRZ_neg', <- pow_powerRZ. reflexivity.
Qed.
Lemma series_loop_stop n (z : C) : forall fuel k w, (0 <= Z.of_nat k < INT64_MAX - 2)%Z ->
  Li_series_loop N fuel n (ofC e z) (Z.of_nat k) (ofC e (Csum (polyterm n z) k)) (ofC e (polyterm n z k)) = Val w ->
  exists K, w = ofC e (Csum (polyterm n z) (S K)) /\ (Cmod (polyterm n z K) <= t * Cmod (Csum (polyterm n z) K) \/ (INT64_MAX - 2 <= Z.of_nat (S K))%Z).
Proof.
  induction fuel as [|f IH]; intros k w Hk H; [discriminate H|].
  cbn [Li_series_loop] in H. rewrite i64_ok in H by (unfold is_int64, INT64_MIN, INT64_MAX in *; lia). cbn [bind] in H. cbv zeta in H.
  replace (cadd N (ofC e (Csum (polyterm n z) k)) (ofC e (polyterm n z k))) with (ofC e (Csum (polyterm n z) (S k)) : cpx N) in H by (symmetry; exact (ofC_add e _ _)).
  replace (Z.of_nat k + 1)%Z with (Z.of_nat (S k)) in H by lia.
  change (lit N 1 0) with (lit (NumR e) 1 0) in H. rewrite lit_int in H. cbn [npow div add ofZ NumQ NumR lift2] in H.
  pose proof (lt_0_INR (S k) ltac:(lia)) as P. rewrite INR_IZR_INZ in P.
  rewrite odiv_some in H by lra. unfold opow in H.
  destruct (Rlt_dec 0 (IZR (Z.of_nat (S k)) / (1 + IZR (Z.of_nat (S k))))) as [Q|Q]; [|elim Q; apply Rdiv_lt_0_compat; lra].
  match type of H with context [cmul N (ofC e (polyterm n z k)) ?y] => replace (cmul N (ofC e (polyterm n z k)) y) with (ofC e (polyterm n z (S k)) : cpx N) in H end.
  2:{ symmetry. match goal with |- cmul N ?a (cmul_cr N ?b (Some ?r)) = _ => change (cmul (NumR e) a (cmul_cr (NumR e) b (Some r)) = ofC e (polyterm n z (S k))) end.
      rewrite ofC_mul_cr, ofC_mul, polyterm_step. reflexivity. }
  replace (Model_Li.is_finite N (ofC e (polyterm n z (S k)))) with true in H by reflexivity. cbn [negb] in H.
  match type of H with (if ?b then _ else _) = _ => destruct b eqn:B end.
  - apply andb_prop in B. destruct B as [_ B]. apply Z.ltb_lt in B. apply (IH (S k) w); [lia|exact H].
  - injection H as <-. exists k. split; [reflexivity|]. apply andb_false_iff in B. destruct B as [B|B].
    + left. apply negb_false_iff in B. apply (ceqb_tol e q t) in B; [|exact Hq|lra].
      replace (Cminus (Csum (polyterm n z) (S k)) (Csum (polyterm n z) k)) with (polyterm n z k) in B by (cbn [Csum]; ring). exact B.
    + right. apply Z.ltb_ge in B. lia.
Qed.
Lemma pow_tiny x K : 0 <= x <= 3 / 4 -> (1000 <= K)%nat -> x ^ K <= / 10 ^ 120.
Proof.
  intros Hx HK. apply Rle_trans with ((3 / 4) ^ K); [apply pow_incr; exact Hx|]. replace K with (1000 + (K - 1000))%nat by lia. rewrite pow_add.
  apply Rle_trans with ((3 / 4) ^ 1000 * 1); [apply Rmult_le_compat_l; [apply pow_le; lra|]|].
  - rewrite <- (pow1 (K - 1000)). apply pow_incr. lra.
  - rewrite Rmult_1_r. interval with (i_prec 60).
Qed.
Theorem series_acc n (z : C) fuel w : (7 <= n)%nat -> Cmod z <= 3 / 4 -> Li_series N fuel (Z.of_nat n) (ofC e z) = Val w ->
  exists s, w = ofC e s /\ Cmod (Cminus s (CLi n z)) <= 4 * t * Cmod z + Cmod z / 10 ^ 100.
Proof.
  intros Hn Hz H. pose proof (Cmod_ge_0 z) as Z0. unfold Li_series in H.
  replace (czero N) with (ofC e (Csum (polyterm (Z.of_nat n) z) 0) : cpx N) in H.
  2:{ cbn [Csum]. unfold czero. change (lit N 0 0) with (lit (NumR e) 0 0). rewrite lit_int. reflexivity. }
  assert (E0 : ofC e z = ofC e (polyterm (Z.of_nat n) z 0)).
  { apply (f_equal (ofC e)). rewrite polyterm_pterm. unfold pterm. cbn [INR Cpow]. rewrite pow1. field. apply RtoC_neq. lra. }
  replace (Li_series_loop N fuel (Z.of_nat n) (ofC e z) 0 (ofC e (Csum (polyterm (Z.of_nat n) z) 0)) (ofC e z)) with (Li_series_loop N fuel (Z.of_nat n) (ofC e z) (Z.of_nat 0) (ofC e (Csum (polyterm (Z.of_nat n) z) 0)) (ofC e (polyterm (Z.of_nat n) z 0))) in H by (rewrite <- E0; reflexivity).
  apply series_loop_stop in H; [|unfold INT64_MAX; lia]. destruct H as (K & -> & S).
  rewrite (Csum_ext _ (pterm n z)) by (intros; apply polyterm_pterm). rewrite (Csum_ext _ (pterm n z) K) in S by (intros; apply polyterm_pterm). rewrite polyterm_pterm in S.
  exists (Csum (pterm n z) (Datatypes.S K)). split; [reflexivity|]. rewrite <- Cmod_opp. replace (Copp (Cminus (Csum (pterm n z) (Datatypes.S K)) (CLi n z))) with (Cminus (CLi n z) (Csum (pterm n z) (Datatypes.S K))) by ring.
  eapply Rle_trans; [apply disc_tail; [lia|lra]|].
  assert (R3 : Cmod z / (1 - Cmod z) <= 3) by (apply Rle_div_l; lra). assert (R0 : 0 <= Cmod z / (1 - Cmod z)) by (apply Rdiv_le_0_compat; lra).
  pose proof (Cmod_ge_0 (pterm n z K)) as PK. assert (B : Cmod (pterm n z K) * (Cmod z / (1 - Cmod z)) <= Cmod (pterm n z K) * 3) by (apply Rmult_le_compat_l; assumption).
  assert (Zd : 0 <= Cmod z / 10 ^ 100) by (apply Rdiv_le_0_compat; lra). assert (tz : 0 <= t * Cmod z) by (apply Rmult_le_pos; lra).
  destruct S as [S|S].
  - pose proof (psum_small n z K Hn Hz) as PS. assert (t * Cmod (Csum (pterm n z) K) <= t * (1.03 * Cmod z)) by (apply Rmult_le_compat_l; lra). lra.
  - assert (P1 : Cmod (pterm n z K) <= Cmod z * / 10 ^ 120).
    { rewrite pterm_mod. assert (HK : (1000 <= K)%nat) by (unfold INT64_MAX in S; lia). pose proof (pow_tiny (Cmod z) K ltac:(lra) HK) as PT.
      assert (I1 : 1 <= INR (Datatypes.S K) ^ n) by (apply pow_R1_Rle; rewrite S_INR; pose proof (pos_INR K); lra).
      apply Rle_div_l; [lra|]. change (Cmod z ^ Datatypes.S K) with (Cmod z * Cmod z ^ K). assert (Cmod z * Cmod z ^ K <= Cmod z * / 10 ^ 120) by (apply Rmult_le_compat_l; assumption).
      assert (0 <= Cmod z * / 10 ^ 120) by (apply Rmult_le_pos; [exact Z0|left; apply Rinv_0_lt_compat; lra]).
      apply Rle_trans with (Cmod z * / 10 ^ 120 * 1); [lra|]. apply Rmult_le_compat_l; assumption. }
    lra.
Qed.
End Ser.
