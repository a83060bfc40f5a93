(** * The expansions about z = 1 (Li_unity_pos, Li_unity_neg) in exact arithmetic with an arbitrary equality test *)
From Coq Require Import ZArith Reals List Bool Lra Lia Psatz.
From Coquelicot Require Import Coquelicot.
From Flocq Require Import Core.Raux.
From Interval Require Import Tactic.
From Verif Require Import Num NumR Outcome Spec Eval_R Consts Model_Tables Model_Zeta Model_LiC Model_Li Proof_Int Proof_LiInt Cplx Proof_Horner Clog_series Polylog Polylog_series Zeta_num Bern Bern_num Properties_F Properties_H Properties_I Rest.
Import ListNotations.
Local Open Scope R_scope.

(** exact real arithmetic whose equality test is [q] (in floating point two numbers compare equal when they are
    merely close, which is what stops the loops) *)
Definition NumQ (e : R) (q : option R -> option R -> bool) : num := {|
  car := option R; lit := lit (NumR e); ofZ := ofZ (NumR e); add := add (NumR e); sub := sub (NumR e); mul := mul (NumR e); div := div (NumR e); opp := opp (NumR e);
  ltb := ltb (NumR e); leb := leb (NumR e); eqb := q; isnan := isnan (NumR e); isinf := isinf (NumR e); nan := nan (NumR e); inf := inf (NumR e); eps := eps (NumR e);
  nlog := nlog (NumR e); nlog1p := nlog1p (NumR e); nsin := nsin (NumR e); ncos := ncos (NumR e); nexp := nexp (NumR e); nsqrt := nsqrt (NumR e); nfmod := nfmod (NumR e);
  npow := npow (NumR e); nhypot := nhypot (NumR e); natan2 := natan2 (NumR e); natan := natan (NumR e); nexp2 := nexp2 (NumR e); ntgamma := ntgamma (NumR e); ceil_to_Z := ceil_to_Z (NumR e) |}.
(** against 0 the test is exact *)
Definition zero_exact (q : option R -> option R -> bool) : Prop := forall x : R, q (Some x) (Some 0) = Reqb x 0.
Lemma NumQ_R e : NumQ e (eqb (NumR e)) = NumR e. Proof. reflexivity. Qed.

(** ** the constants the code reads *)
Definition zvals (e : R) (zc : Z -> R) (b : Z) : Prop := forall m, (-260 <= m <= b)%Z -> m <> 1%Z -> zeta (NumR e) m = Val (Some (zc m)).
Definition zacc (zc : Z -> R) : Prop :=
  zc 0%Z = - / 2 /\ (forall n, (2 <= n)%nat -> Rabs (zc (Z.of_nat n) - ReLi n 1) <= 67 / 10 ^ 18) /\
  (forall b m, is_bernoulli b -> (1 <= m <= 130)%nat -> Rabs (zc (1 - 2 * Z.of_nat m)%Z - - b (2 * m)%nat / INR (2 * m)) <= 60 / 10 ^ 18 * Rabs (- b (2 * m)%nat / INR (2 * m))) /\
  (forall m, (m < 0)%Z -> Z.even m = true -> zc m = 0).
Lemma zeta_code e : exists zc, zvals e zc INT64_MAX /\ zacc zc.
Proof.
  exists (fun m => if (m <? 0)%Z then (if is_even m then 0 else let d := nth (Z.to_nat (Z.quot (- (1 + m)) 2)) ZETAS_NEG (0, 0)%Z in litR (fst d) (snd d))
    else if (m =? 0)%Z then litR (-5) (-1) else if (m <? 34)%Z then let d := nth (Z.to_nat (m - 2)) ZETAS_POS (0, 0)%Z in litR (fst d) (snd d) else / (1 - / 2 ^ Z.to_nat m)).
  assert (Q : forall m : nat, (1 <= m)%nat -> Z.to_nat (Z.quot (- (1 + (1 - 2 * Z.of_nat m))) 2) = (m - 1)%nat).
  { intros m Hm. replace (- (1 + (1 - 2 * Z.of_nat m)))%Z with (Z.of_nat (m - 1) * 2)%Z by lia. rewrite Z.quot_mul by lia. lia. }
  split; [|split; [|split; [|split]]].
  - intros m Hm N1. destruct (Z.ltb_spec m 0) as [M|M].
    + destruct (is_even m) eqn:E.
      * rewrite (zeta_neg_even (NumR e) m) by (try assumption; unfold is_int64, INT64_MIN, INT64_MAX in *; lia). rewrite lit_int. reflexivity.
      * destruct (odd_neg_form m M E) as (k0 & Hk & ->). destruct (zeta_neg_odd_table (NumR e) k0 ltac:(lia)) as (d & A & ->).
        apply nth_error_nth' with (d := (0, 0)%Z) in A. set (k := Z.to_nat k0). assert (K : k0 = Z.of_nat k) by (unfold k; lia). rewrite K in *. rewrite Q by lia.
        replace (Z.to_nat (Z.of_nat k - 1)) with (k - 1)%nat in A by lia. rewrite A. reflexivity.
    + destruct (Z.eqb_spec m 0) as [->|M0]; [reflexivity|]. destruct (Z.ltb_spec m 34) as [M3|M3].
      * destruct (zeta_pos_table (NumR e) m ltac:(lia)) as (d & A & ->). apply nth_error_nth' with (d := (0, 0)%Z) in A. rewrite A. reflexivity.
      * rewrite (zeta_pos_large (NumR e) m) by (try lia; unfold is_int64, INT64_MIN, INT64_MAX in *; lia). rewrite !lit_int. change (lit (NumR e) 5 (-1)) with (Some (litR 5 (-1))). 
        cbn [npow ofZ sub div NumR]. unfold opow. rewrite litR_half. destruct (Rlt_dec 0 (/ 2)) as [H|H]; [|lra].
        replace (Rpower (/ 2) (IZR m)) with (/ 2 ^ Z.to_nat m).
        2:{ rewrite <- (Z2Nat.id m) at 2 by lia. rewrite <- INR_IZR_INZ, Rpower_pow by lra. rewrite pow_inv by lra. reflexivity. }
        cbn [lift2]. assert (1 < 2 ^ Z.to_nat m) by (apply Rlt_pow_R1; [lra|lia]). assert (/ 2 ^ Z.to_nat m < 1) by (rewrite <- Rinv_1; apply Rinv_lt_contravar; lra).
        rewrite odiv_some by lra. unfold Rdiv. rewrite Rmult_1_l. reflexivity.
  - cbn [Z.ltb Z.compare Z.eqb]. unfold litR. cbn. lra.
  - intros n Hn. destruct (Z.ltb_spec (Z.of_nat n) 0); [lia|]. destruct (Z.eqb_spec (Z.of_nat n) 0); [lia|]. destruct (Z.ltb_spec (Z.of_nat n) 34).
    + replace (Z.to_nat (Z.of_nat n - 2)) with (n - 2)%nat by lia. pose proof (zpos_ok n ltac:(lia)) as P. cbv zeta in P. eapply Rle_trans; [exact P|lra].
    + rewrite Nat2Z.id. pose proof (zeta_closed n ltac:(lia)) as P. exact P.
  - intros b m B Hm. destruct (Z.ltb_spec (1 - 2 * Z.of_nat m) 0); [|lia]. assert (E : is_even (1 - 2 * Z.of_nat m) = false) by (apply even_false; exists (- Z.of_nat m)%Z; lia). rewrite E, Q by lia.
    destruct (zeta_neg_ok b B (m - 1) ltac:(lia)) as (P & _). replace (m - 1 + 1)%nat with m in P by lia. unfold zlim in P. cbv zeta. exact P.
  - intros m Hm E. destruct (Z.ltb_spec m 0); [|lia]. rewrite even_Zeven, E. reflexivity.
Qed.

Section P.
Variable e : R.
Variable q : option R -> option R -> bool.
Hypothesis Hq : zero_exact q.
Notation N := (NumQ e q).
Lemma clogQ z : Li_clog N (ofC e z) = Li_clog (NumR e) (ofC e z).
Proof.
  unfold Li_clog. cbn [fst snd ofC]. change (lit N 0 0) with (lit (NumR e) 0 0). rewrite lit_int. change (eqb N) with q. rewrite !Hq. reflexivity.
Qed.
Variables (zc : Z -> R) (h : R) (n : nat) (v u : C).
Hypothesis Hn : (2 <= n)%nat.
Hypothesis Hz : zvals e zc (Z.of_nat n).
Hypothesis Hze : forall m, (m < 0)%Z -> Z.even m = true -> zc m = 0.
Hypothesis Hh : harmonic (NumR e) (Z.of_nat n - 1) = Val (Some h).
(** the terms of the expansion: zeta(n-j) L^j/j!, and (H_{n-1} - log(-L)) L^(n-1)/(n-1)! at j = n-1 *)
Definition uterm (j : nat) : C :=
  Cmult (if (j =? n - 1)%nat then Cminus (RtoC h) u else RtoC (zc (Z.of_nat n - Z.of_nat j)%Z)) (Cdiv (Cpow v j) (RtoC (INR (fact j)))).
Definition pw (j : nat) : C := Cdiv (Cpow v j) (RtoC (INR (fact j))).
Lemma uterm_at : uterm (n - 1) = Cmult (Cminus (RtoC h) u) (pw (n - 1)).
Proof. unfold uterm. rewrite Nat.eqb_refl. reflexivity. Qed.
Lemma uterm_ne j : (j <> n - 1)%nat -> uterm j = Cmult (RtoC (zc (Z.of_nat n - Z.of_nat j)%Z)) (pw j).
Proof. intros H. unfold uterm. destruct (Nat.eqb_spec j (n - 1)); [contradiction|]. reflexivity. Qed.
Lemma fact_C j : RtoC (INR (fact j)) <> RtoC 0.
Proof. intros E. apply (f_equal fst) in E. cbn in E. exact (INR_fact_neq_0 j E). Qed.
Lemma pw_S j : Cmult (pw j) (Cdiv v (RtoC (INR (S j)))) = pw (S j).
Proof.
  unfold pw. rewrite fact_simpl, mult_INR, RtoC_mult. change (Cpow v (S j)) with (Cmult v (Cpow v j)). field. split; [apply fact_C|].
  intros E. apply (f_equal fst) in E. cbn [fst RtoC] in E. pose proof (not_0_INR (S j) ltac:(lia)). contradiction.
Qed.
Lemma step1 j k : k = Z.of_nat (S j) -> cmul N (ofC e (pw j)) (cdiv_cr N (ofC e v) (ofZ N k)) = ofC e (pw (S j)).
Proof.
  intros ->. change (cdiv_cr N (ofC e v) (ofZ N (Z.of_nat (S j)))) with (cdiv_cr (NumR e) (ofC e v) (Some (IZR (Z.of_nat (S j))))).
  rewrite <- INR_IZR_INZ. rewrite ofC_div_cr by (apply not_0_INR; lia). change (cmul N) with (cmul (NumR e)). rewrite ofC_mul, pw_S. reflexivity.
Qed.
Lemma addmul r (a b : C) : cadd N (ofC e a) (cmul_rc N (Some r) (ofC e b)) = ofC e (Cplus a (Cmult (RtoC r) b)).
Proof. exact (eq_trans (f_equal (cadd (NumR e) (ofC e a)) (ofC_mul_rc e r b)) (ofC_add e a _)). Qed.
Lemma loop1_ok : forall cnt j, (j + cnt = n - 2)%nat ->
  Li_unity_pos_loop1 N cnt (Z.of_nat (S j)) (Z.of_nat n) (ofC e v) (ofC e (Csum uterm (S j))) (ofC e (pw j)) = Val (ofC e (Csum uterm (n - 1)), ofC e (pw (n - 2))).
Proof.
  induction cnt as [|c IH]; intros j Hj; cbn [Li_unity_pos_loop1].
  - replace (n - 1)%nat with (S j) by lia. replace (n - 2)%nat with j by lia. reflexivity.
  - cbv zeta. rewrite (step1 j) by reflexivity. change (zeta N) with (zeta (NumR e)). rewrite Hz by lia. cbn [bind].
    change (cadd N ?a (cmul_rc N ?r ?b)) with (cadd (NumR e) a (cmul_rc (NumR e) r b)). rewrite ofC_mul_rc, ofC_add.
    replace (Z.of_nat (S j) + 1)%Z with (Z.of_nat (S (S j))) by lia.
    replace (Cplus (Csum uterm (S j)) (Cmult (RtoC (zc (Z.of_nat n - Z.of_nat (S j))%Z)) (pw (S j)))) with (Csum uterm (S (S j))).
    + apply IH. lia.
    + change (Csum uterm (S (S j))) with (Cplus (Csum uterm (S j)) (uterm (S j))). unfold uterm at 2. destruct (Nat.eqb_spec (S j) (n - 1)); [lia|]. reflexivity.
Qed.
Lemma zc_even j : (n < j)%nat -> Z.even (Z.of_nat n - Z.of_nat j) = true -> uterm j = RtoC 0.
Proof. intros H E. unfold uterm. destruct (Nat.eqb_spec j (n - 1)); [lia|]. rewrite Hze by (try exact E; lia). ring. Qed.
Lemma loop2_none fuel : forall j s p, fst s = None -> snd s = None -> (Z.of_nat n < j)%Z -> forall w, Li_unity_pos_loop2 N fuel j (Z.of_nat n) (ofC e (Cmult v v)) s p = Val w -> fst w = None /\ snd w = None.
Proof.
  induction fuel as [|f IH]; intros j s p S1 S2 Hj w H; [discriminate|]. cbn [Li_unity_pos_loop2] in H. destruct (j <? INT64_MAX - 2)%Z; [|injection H as <-; auto].
  destruct (i64 ((j - 1) * j)) as [jj| |]; cbn [bind] in H; try discriminate H. destruct (i64 (Z.of_nat n - j)) as [nj| |]; cbn [bind] in H; try discriminate H.
  destruct (zeta N nj) as [z| |]; cbn [bind] in H; try discriminate H. cbv zeta in H.
  assert (A : forall t, fst (cadd N s t) = None /\ snd (cadd N s t) = None) by (intros t; destruct s as [a b]; cbn [fst snd] in S1, S2; subst a b; split; reflexivity).
  match type of H with (if ?b then _ else _) = _ => destruct b end; [injection H as <-; apply A|].
  destruct (i64 (j + 2)) as [j'| |] eqn:E; cbn [bind] in H; try discriminate H. unfold i64 in E. destruct (_ && _)%bool; [|discriminate]. injection E as <-.
  eapply IH; [| | |exact H]; try apply A. lia.
Qed.
Hypothesis Hnb : (Z.of_nat n <= 3037000497)%Z.
Lemma loop2_ok fuel : forall j w, (n + 3 <= j <= n + 261)%nat -> Z.even (Z.of_nat n - Z.of_nat j) = false ->
  Li_unity_pos_loop2 N fuel (Z.of_nat j) (Z.of_nat n) (ofC e (Cmult v v)) (ofC e (Csum uterm (j - 1))) (ofC e (pw (j - 2))) = Val w ->
  (exists K, (n + 2 <= K <= n + 261)%nat /\ w = ofC e (Csum uterm K)) \/ (fst w = None /\ snd w = None).
Proof.
  induction fuel as [|f IH]; intros j w Hj Hp H; [discriminate|]. cbn [Li_unity_pos_loop2] in H.
  destruct (Z.ltb_spec (Z.of_nat j) (INT64_MAX - 2)) as [J|J]; [|exfalso; unfold INT64_MAX in J; lia].
  destruct (i64 ((Z.of_nat j - 1) * Z.of_nat j)) as [jj| |] eqn:JJ; cbn [bind] in H; try discriminate H. assert (jj = (Z.of_nat j - 1) * Z.of_nat j)%Z as -> by (unfold i64 in JJ; destruct (_ && _)%bool; [injection JJ as <-; reflexivity|discriminate]).
  cbv zeta in H. rewrite i64_ok in H by (unfold INT64_MIN, INT64_MAX; lia). cbn [bind] in H.
  change (zeta N) with (zeta (NumR e)) in H.
  destruct (Nat.eq_dec j (n + 261)) as [JE|JE].
  - right. rewrite zeta_none in H by (try (rewrite even_Zeven; exact Hp); unfold is_int64, INT64_MIN, INT64_MAX; lia). cbn [bind] in H.
    assert (A : forall s t, fst (cadd N s (cmul_rc N None t)) = None /\ snd (cadd N s (cmul_rc N None t)) = None).
    { intros [[a|] [b|]] [[c|] [d|]]; split; reflexivity. }
    match type of H with (if ?b then _ else _) = _ => destruct b end; [injection H as <-; apply A|].
    rewrite i64_ok in H by (unfold INT64_MIN, INT64_MAX; lia). cbn [bind] in H. eapply loop2_none; [| | |exact H]; try apply A. lia.
  - rewrite Hz in H by lia. cbn [bind] in H.
    assert (P2 : cmul N (ofC e (pw (j - 2))) (cdiv_cr N (ofC e (Cmult v v)) (ofZ N ((Z.of_nat j - 1) * Z.of_nat j))) = ofC e (pw j)).
    { change (cdiv_cr N (ofC e (Cmult v v)) (ofZ N ((Z.of_nat j - 1) * Z.of_nat j))) with (cdiv_cr (NumR e) (ofC e (Cmult v v)) (Some (IZR ((Z.of_nat j - 1) * Z.of_nat j)))).
      rewrite ofC_div_cr by (apply not_0_IZR; nia). change (cmul N) with (cmul (NumR e)). rewrite ofC_mul. f_equal.
      replace j with (S (S (j - 2))) at 4 by lia. rewrite <- !pw_S. replace (IZR ((Z.of_nat j - 1) * Z.of_nat j)) with (INR (S (j - 2)) * INR (S (S (j - 2)))).
      - rewrite RtoC_mult. field. split; intros E; apply (f_equal fst) in E; cbn [fst RtoC] in E; (apply not_0_INR in E; [exact E|lia]).
      - rewrite mult_IZR, !INR_IZR_INZ. f_equal; f_equal; lia. }
    rewrite P2 in H. change (cadd N ?a (cmul_rc N ?r ?b)) with (cadd (NumR e) a (cmul_rc (NumR e) r b)) in H. rewrite ofC_mul_rc, ofC_add in H.
    assert (SM : Cplus (Csum uterm (j - 1)) (Cmult (RtoC (zc (Z.of_nat n - Z.of_nat j)%Z)) (pw j)) = Csum uterm (S j)).
    { replace (Csum uterm (S j)) with (Cplus (Csum uterm j) (uterm j)) by reflexivity. replace (Csum uterm j) with (Csum uterm (j - 1)).
      - f_equal. unfold uterm. destruct (Nat.eqb_spec j (n - 1)); [lia|]. reflexivity.
      - replace j with (S (j - 1)) at 2 by lia. cbn [Csum]. rewrite (zc_even (j - 1)) by (try lia; replace (Z.of_nat n - Z.of_nat (j - 1))%Z with (Z.succ (Z.of_nat n - Z.of_nat j))%Z by lia; rewrite Z.even_succ, <- Z.negb_even, Hp; reflexivity). ring. }
    rewrite SM in H.
    match type of H with (if ?b then _ else _) = _ => destruct b end.
    + injection H as <-. left. exists (S j). split; [lia|reflexivity].
    + rewrite i64_ok in H by (unfold INT64_MIN, INT64_MAX; lia). cbn [bind] in H. replace (Z.of_nat j + 2)%Z with (Z.of_nat (j + 2)) in H by lia.
      apply (IH (j + 2)%nat); [| |replace (j + 2 - 1)%nat with (S j) by lia; replace (j + 2 - 2)%nat with j by lia; exact H].
      * assert (j <> n + 260)%nat; [|lia]. intros ->. revert Hp. replace (Z.of_nat n - Z.of_nat (n + 260))%Z with (-260)%Z by lia. discriminate.
      * replace (Z.of_nat n - Z.of_nat (j + 2))%Z with ((Z.of_nat n - Z.of_nat j) + (-1) * 2)%Z by lia. rewrite Z.mul_comm, Z.even_add_mul_2. exact Hp.
Qed.
Lemma unity_pos_ok fuel z w : Li_clog (NumR e) (ofC e z) = ofC e v -> Li_clog (NumR e) (ofC e (Copp v)) = ofC e u ->
  Li_unity_pos N fuel (Z.of_nat n) (ofC e z) = Val w ->
  (exists K, (n + 2 <= K <= n + 261)%nat /\ w = ofC e (Csum uterm K)) \/ (fst w = None /\ snd w = None).
Proof.
  intros V U H. unfold Li_unity_pos in H. cbv zeta in H. rewrite clogQ, V in H. change (zeta N) with (zeta (NumR e)) in H. rewrite Hz in H by lia. cbn [bind] in H.
  rewrite i64_ok in H by (unfold INT64_MIN, INT64_MAX; lia). cbn [bind] in H.
  assert (S0 : (Some (zc (Z.of_nat n)), lit (NumR e) 0 0) = ofC e (Csum uterm 1)).
  { rewrite lit_int. cbn [Csum]. unfold uterm. destruct (Nat.eqb_spec 0 (n - 1)); [lia|].
    replace (Z.of_nat n - Z.of_nat 0)%Z with (Z.of_nat n) by lia. cbn [Cpow fact INR]. unfold ofC. apply (f_equal2 pair); f_equal; unfold Cdiv, Cinv, Cmult, Cplus, RtoC; cbn [fst snd]; field. }
  assert (P0 : (lit (NumR e) 1 0, lit (NumR e) 0 0) = ofC e (pw 0)).
  { rewrite !lit_int. unfold pw. cbn [Cpow fact INR]. unfold ofC. apply (f_equal2 pair); f_equal; unfold Cdiv, Cinv, Cmult, Cplus, RtoC; cbn [fst snd]; field. }
  change (@pair (car N) (car N) (lit N 1 0) (lit N 0 0)) with (@pair (car (NumR e)) (car (NumR e)) (lit (NumR e) 1 0) (lit (NumR e) 0 0)) in H. rewrite P0 in H.
  match type of H with context [Li_unity_pos_loop1 N ?a ?b ?c ?d ?s ?p] => replace s with (ofC e (Csum uterm 1) : cpx N) in H by (symmetry; exact S0) end. 
  replace (Z.to_nat (Z.of_nat n - 1 - 1)) with (n - 2)%nat in H by lia.
  match type of H with context [Li_unity_pos_loop1 N ?a ?b ?c ?d ?s ?p] => replace (Li_unity_pos_loop1 N a b c d s p) with (Val (ofC e (Csum uterm (n - 1)), ofC e (pw (n - 2))) : out (cpx N * cpx N)) in H by (symmetry; exact (loop1_ok (n - 2) 0 ltac:(lia))) end. cbn [bind] in H.
  rewrite (step1 (n - 2)) in H by lia. replace (S (n - 2)) with (n - 1)%nat in H by lia.
  change (harmonic N) with (harmonic (NumR e)) in H. rewrite Hh in H. cbn [bind] in H.
  change (copp N (ofC e v)) with (copp (NumR e) (ofC e v)) in H. rewrite ofC_opp, clogQ, U in H.
  change (cadd N ?a (cmul N (csub_rc N ?r ?b) ?c)) with (cadd (NumR e) a (cmul (NumR e) (csub_rc (NumR e) r b) c)) in H.
  rewrite ofC_sub_rc, ofC_mul, ofC_add in H.
  assert (S1 : Cplus (Csum uterm (n - 1)) (Cmult (Cminus (RtoC h) u) (pw (n - 1))) = Csum uterm n).
  { replace (Csum uterm n) with (Csum uterm (S (n - 1))) by (f_equal; lia). change (Csum uterm (S (n - 1))) with (Cplus (Csum uterm (n - 1)) (uterm (n - 1))). rewrite uterm_at. reflexivity. }
  rewrite S1 in H. rewrite (step1 (n - 1)) in H by lia. replace (S (n - 1)) with n in H by lia.
  rewrite Hz in H by lia. cbn [bind] in H. 
  rewrite addmul in H.
  assert (S2 : Cplus (Csum uterm n) (Cmult (RtoC (zc 0%Z)) (pw n)) = Csum uterm (S n)).
  { change (Csum uterm (S n)) with (Cplus (Csum uterm n) (uterm n)). rewrite (uterm_ne n) by lia. rewrite Z.sub_diag. reflexivity. }
  rewrite S2 in H. rewrite i64_ok in H by (unfold INT64_MIN, INT64_MAX; lia). cbn [bind] in H.
  rewrite (step1 n) in H by lia. rewrite Hz in H by lia. cbn [bind] in H.
  rewrite addmul in H.
  assert (S3 : Cplus (Csum uterm (S n)) (Cmult (RtoC (zc (-1)%Z)) (pw (S n))) = Csum uterm (S (S n))).
  { change (Csum uterm (S (S n))) with (Cplus (Csum uterm (S n)) (uterm (S n))). rewrite (uterm_ne (S n)) by lia.
    replace (Z.of_nat n - Z.of_nat (S n))%Z with (-1)%Z by lia. reflexivity. }
  rewrite S3 in H. rewrite i64_ok in H by (unfold INT64_MIN, INT64_MAX; lia). cbn [bind] in H.
  replace (Z.of_nat n + 3)%Z with (Z.of_nat (n + 3)) in H by lia. change (cmul N (ofC e v) (ofC e v)) with (cmul (NumR e) (ofC e v) (ofC e v)) in H. rewrite ofC_mul in H.
  apply (loop2_ok fuel (n + 3)); [lia|replace (Z.of_nat n - Z.of_nat (n + 3))%Z with (-3)%Z by lia; reflexivity|].
  replace (n + 3 - 1)%nat with (S (S n)) by lia. replace (n + 3 - 2)%nat with (S n) by lia. exact H.
Qed.
End P.

(** ** integer powers of complex numbers *)
Lemma opow_neg (x : R) (m : nat) : x <> 0 -> opow (Some x) (Some (IZR (- Z.of_nat m))) = Some (/ x ^ m).
Proof.
  intros H. unfold opow. rewrite Zfloor_IZR. destruct (Rlt_dec 0 x) as [P|P].
  - rewrite opp_IZR, <- INR_IZR_INZ, Rpower_Ropp, Rpower_pow by exact P. reflexivity.
  - destruct (Req_EM_T _ _) as [_|D]; [|contradiction]. destruct (Req_EM_T x 0); [contradiction|]. f_equal. destruct m as [|m]; [cbn; field|].
    change (- Z.of_nat (S m))%Z with (Zneg (Pos.of_succ_nat m)). unfold powerRZ. rewrite SuccNat2Pos.id_succ. reflexivity.
Qed.
Lemma Cpow_re x m : Cpow (x, 0) m = (x ^ m, 0).
Proof. induction m as [|m IH]; [reflexivity|]. cbn [Cpow pow]. rewrite IH. unfold Cmult. cbn [fst snd]. f_equal; ring. Qed.
Lemma Cpow_im y q : Cpow (0, y) (4 * q) = (y ^ (4 * q), 0).
Proof.
  induction q as [|q IH]; [reflexivity|]. replace (4 * S q)%nat with (S (S (S (S (4 * q))))) by lia. cbn [Cpow pow]. rewrite IH.
  unfold Cmult. cbn [fst snd]. apply (f_equal2 pair); ring.
Qed.
Lemma Cexp_plus a b : Cexp (Cplus a b) = Cmult (Cexp a) (Cexp b).
Proof. unfold Cexp, Cplus, Cmult. cbn [fst snd]. rewrite exp_plus, cos_plus, sin_plus. apply (f_equal2 pair); ring. Qed.
Lemma Cexp_mult a m : Cexp (Cmult (RtoC (INR m)) a) = Cpow (Cexp a) m.
Proof.
  induction m as [|m IH].
  - unfold Cexp, Cmult. cbn [fst snd RtoC INR Cpow]. rewrite !Rmult_0_l, Rminus_0_r, Rplus_0_r, exp_0, cos_0, sin_0. unfold RtoC. f_equal; ring.
  - cbn [Cpow]. rewrite <- IH, <- Cexp_plus. f_equal. rewrite S_INR, RtoC_plus. ring.
Qed.
Lemma Cexp_neg a : Cmult (Cexp (Copp a)) (Cexp a) = RtoC 1.
Proof.
  rewrite <- Cexp_plus. replace (Cplus (Copp a) a) with (RtoC 0) by ring. unfold Cexp, RtoC. cbn [fst snd]. rewrite exp_0, cos_0, sin_0. f_equal; ring.
Qed.
Lemma Cexp_opp a : Cexp (Copp a) = Cinv (Cexp a).
Proof.
  assert (Z : Cexp a <> RtoC 0). { intros E. pose proof (Cexp_neg a) as K. rewrite E in K. rewrite Cmult_0_r in K. apply (f_equal fst) in K. cbn in K. lra. }
  pose proof (Cexp_neg a) as K. replace (Cexp (Copp a)) with (Cmult (Cmult (Cexp (Copp a)) (Cexp a)) (Cinv (Cexp a))) by (field; exact Z). rewrite K. ring.
Qed.
Lemma Cpow_neq w m : w <> RtoC 0 -> Cpow w m <> RtoC 0.
Proof. intros H. induction m as [|m IH]; cbn [Cpow]; [intros E; apply (f_equal fst) in E; cbn in E; lra|apply Cmult_neq_0; assumption]. Qed.
Lemma Cinv_re x : x <> 0 -> Cinv (x, 0) = (/ x, 0).
Proof. intros H. unfold Cinv. cbn [fst snd]. apply (f_equal2 pair); field; exact H. Qed.
Lemma Cinv_im y : y <> 0 -> Cinv (0, y) = (0, - / y).
Proof. intros H. unfold Cinv. cbn [fst snd]. apply (f_equal2 pair); field; exact H. Qed.
Lemma rem_neg a b k r : (0 < b)%Z -> (0 <= k)%Z -> (0 <= r < b)%Z -> (a = - (b * k + r))%Z -> Z.rem a b = (- r)%Z.
Proof. intros B K R ->. rewrite Z.rem_opp_l by lia. f_equal. rewrite Z.rem_mod_nonneg by nia. symmetry. apply (Z.mod_unique _ b k r); lia. Qed.
Lemma stable_pow_ok e q (w : C) (m : nat) : zero_exact q -> w <> RtoC 0 -> is_int64 (- Z.of_nat m - 1) ->
  stable_pow (NumQ e q) (ofC e w) (- Z.of_nat m) = Val (ofC e (Cinv (Cpow w m))).
Proof.
  intros Hq W Hm. unfold stable_pow. cbn [fst snd ofC]. change (lit (NumQ e q) 0 0) with (lit (NumR e) 0 0). rewrite lit_int. change (eqb (NumQ e q)) with q. rewrite !Hq.
  destruct w as [x y]. cbn [fst snd]. unfold Reqb. destruct (Req_EM_T y 0) as [->|Y].
  - assert (X : x <> 0) by (intros ->; apply W; reflexivity).
    change (npow (NumQ e q)) with opow. change (ofZ (NumQ e q) (- Z.of_nat m)) with (Some (IZR (- Z.of_nat m))). rewrite opow_neg by exact X. rewrite Cpow_re, Cinv_re by (apply pow_nonzero; exact X). reflexivity.
  - destruct (Req_EM_T x 0) as [->|X].
    + change (npow (NumQ e q)) with opow. change (ofZ (NumQ e q) (- Z.of_nat m)) with (Some (IZR (- Z.of_nat m))). rewrite opow_neg by exact Y.
      pose proof (Nat.div_mod m 4 ltac:(lia)) as D. pose proof (Nat.mod_upper_bound m 4 ltac:(lia)) as B. set (k := (m / 4)%nat) in *. set (r := (m mod 4)%nat) in *.
      assert (Y4 : y ^ (4 * k) <> 0) by (apply pow_nonzero; exact Y).
      assert (R : (r = 0 \/ r = 1 \/ r = 2 \/ r = 3)%nat) by lia. clearbody k r. subst m.
      destruct R as [-> | [-> | [-> | ->]]].
      * replace (Z.rem (- Z.of_nat (4 * k + 0)) 4) with 0%Z by (symmetry; apply (rem_neg _ 4 (Z.of_nat k) 0); lia).
        cbn [Z.eqb]. rewrite Nat.add_0_r, Cpow_im, Cinv_re by exact Y4. reflexivity.
      * replace (Z.rem (- Z.of_nat (4 * k + 1)) 4) with (-1)%Z by (symmetry; apply (rem_neg _ 4 (Z.of_nat k) 1); lia).
        replace (Z.rem (- Z.of_nat (4 * k + 1)) 2) with (-1)%Z by (symmetry; apply (rem_neg _ 2 (2 * Z.of_nat k) 1); lia).
        cbn [Z.eqb]. rewrite i64_ok by exact Hm. cbn [bind].
        replace (Z.rem (- Z.of_nat (4 * k + 1) - 1) 4) with (-2)%Z by (symmetry; apply (rem_neg _ 4 (Z.of_nat k) 2); lia).
        cbn [Z.eqb]. rewrite Nat.add_1_r. cbn [Cpow pow]. rewrite Cpow_im. replace (Cmult (0, y) (y ^ (4 * k), 0)) with ((0, y * y ^ (4 * k)) : C) by (unfold Cmult; cbn [fst snd]; f_equal; ring).
        rewrite Cinv_im by (apply Rmult_integral_contrapositive_currified; assumption). reflexivity.
      * replace (Z.rem (- Z.of_nat (4 * k + 2)) 4) with (-2)%Z by (symmetry; apply (rem_neg _ 4 (Z.of_nat k) 2); lia).
        replace (Z.rem (- Z.of_nat (4 * k + 2)) 2) with 0%Z by (symmetry; apply (rem_neg _ 2 (2 * Z.of_nat k + 1) 0); lia).
        cbn [Z.eqb]. replace (4 * k + 2)%nat with (S (S (4 * k))) by lia. cbn [Cpow pow]. rewrite Cpow_im. replace (Cmult (0, y) (Cmult (0, y) (y ^ (4 * k), 0))) with ((- (y * (y * y ^ (4 * k))), 0) : C) by (unfold Cmult; cbn [fst snd]; f_equal; ring).
        rewrite Cinv_re by (apply Ropp_neq_0_compat; repeat apply Rmult_integral_contrapositive_currified; assumption).
        unfold ofC. cbn [fst snd]. apply f_equal. apply (f_equal2 pair); [|reflexivity]. cbn. f_equal. field. split; assumption.
      * replace (Z.rem (- Z.of_nat (4 * k + 3)) 4) with (-3)%Z by (symmetry; apply (rem_neg _ 4 (Z.of_nat k) 3); lia).
        replace (Z.rem (- Z.of_nat (4 * k + 3)) 2) with (-1)%Z by (symmetry; apply (rem_neg _ 2 (2 * Z.of_nat k + 1) 1); lia).
        cbn [Z.eqb]. rewrite i64_ok by exact Hm. cbn [bind].
        replace (Z.rem (- Z.of_nat (4 * k + 3) - 1) 4) with 0%Z by (symmetry; apply (rem_neg _ 4 (Z.of_nat k + 1) 0); lia).
        cbn [Z.eqb]. replace (4 * k + 3)%nat with (S (S (S (4 * k)))) by lia. cbn [Cpow pow]. rewrite Cpow_im. replace (Cmult (0, y) (Cmult (0, y) (Cmult (0, y) (y ^ (4 * k), 0)))) with ((0, - (y * (y * (y * y ^ (4 * k))))) : C) by (unfold Cmult; cbn [fst snd]; f_equal; ring).
        rewrite Cinv_im by (apply Ropp_neq_0_compat; repeat apply Rmult_integral_contrapositive_currified; assumption).
        unfold ofC. cbn [fst snd]. apply f_equal. apply (f_equal2 pair); [reflexivity|]. cbn. f_equal. field. split; assumption.
    + unfold cpow. cbn [fst snd]. match goal with |- context [(?a && ?b)%bool] => replace a with (Reqb y 0) by (symmetry; exact (eq_trans (f_equal (q (Some y)) (lit_int e 0)) (Hq y))) end. unfold Reqb. destruct (Req_EM_T y 0); [contradiction|]. cbn [andb].
      set (w := (x, y) : C) in *. cbv zeta. match goal with |- context [clog (NumQ e q) ?a] => replace (clog (NumQ e q) a) with (ofC e (Clog w) : cpx (NumQ e q)) by (symmetry; exact (ofC_log e w W)) end. cbn [fst snd ofC]. apply f_equal.
      destruct (Clog_spec w W) as [EX _]. replace (Cpow w m) with (Cpow (Cexp (Clog w)) m) by (rewrite EX; reflexivity). rewrite <- Cexp_mult, <- Cexp_opp. unfold Cexp, ofC. cbn [fst snd].
      unfold Copp, Cmult. cbn [fst snd RtoC]. apply (f_equal2 pair); cbn; f_equal; rewrite opp_IZR, <- INR_IZR_INZ; f_equal; f_equal; ring.
Qed.

(** ** Li_unity_neg *)
Section Ng.
Variable e : R.
Variable q : option R -> option R -> bool.
Hypothesis Hq : zero_exact q.
Notation N := (NumQ e q).
Variables (zc : Z -> R) (f : nat -> R) (m : nat) (v : C).
(** the order is n = -m *)
Hypothesis Hm : (1 <= m <= 259)%nat.
Hypothesis Hz : zvals e zc 0.
Hypothesis Hze : forall m, (m < 0)%Z -> Z.even m = true -> zc m = 0.
Hypothesis Hf : forall k, inv_fac (NumR e) (Z.of_nat k) = Val (Some (f k)).
(** the terms zeta(n-k) L^k/k! *)
Definition nterm (k : nat) : C := Cmult (RtoC (zc (- Z.of_nat m - Z.of_nat k)%Z * f k)) (Cpow v k).
Hypothesis Hf0 : f 0%nat = 1.
Lemma nterm_0 k : (1 <= k + m)%nat -> Z.even (- Z.of_nat m - Z.of_nat k) = true -> nterm k = RtoC 0.
Proof. intros H E. unfold nterm. rewrite Hze by (try exact E; lia). rewrite Rmult_0_l. ring. Qed.
Lemma even_flip k : Z.even (- Z.of_nat m - Z.of_nat (S k)) = negb (Z.even (- Z.of_nat m - Z.of_nat k)).
Proof. replace (- Z.of_nat m - Z.of_nat k)%Z with (Z.succ (- Z.of_nat m - Z.of_nat (S k))) by lia. rewrite Z.even_succ, <- Z.negb_even, negb_involutive. reflexivity. Qed.
Lemma neg_loop_ok (a : C) fuel : forall k w, (1 <= k <= 261)%nat -> Z.even (- Z.of_nat m - Z.of_nat k) = false ->
  Li_unity_neg_loop N fuel (- Z.of_nat m) (Z.of_nat k) (ofC e (Cmult v v)) (ofC e (Cpow v k)) (ofC e (Cplus a (Csum nterm k))) = Val w ->
  exists K, (1 <= K <= 262)%nat /\ w = ofC e (Cplus a (Csum nterm K)).
Proof.
  induction fuel as [|fl IH]; intros k w Hk Hp H; [discriminate|]. cbn [Li_unity_neg_loop] in H.
  rewrite i64_ok in H by (unfold INT64_MIN, INT64_MAX; lia). cbn [bind] in H. change (zeta N) with (zeta (NumR e)) in H.
  destruct (Z_le_gt_dec (- Z.of_nat m - Z.of_nat k) (-261)) as [G|G].
  - rewrite zeta_none in H by (try (rewrite even_Zeven; exact Hp); unfold is_int64, INT64_MIN, INT64_MAX; lia). cbn [bind] in H.
    change (inv_fac N) with (inv_fac (NumR e)) in H. rewrite Hf in H. cbn [bind] in H. cbv zeta in H.
    replace (is_finite N (cmul_rc N (mul N None (Some (f k))) (ofC e (Cpow v k)))) with false in H by reflexivity. cbn [negb] in H. injection H as <-.
    exists k. split; [lia|reflexivity].
  - rewrite Hz in H by lia. cbn [bind] in H. change (inv_fac N) with (inv_fac (NumR e)) in H. rewrite Hf in H. cbn [bind] in H. cbv zeta in H.
    assert (T : cmul_rc N (mul N (Some (zc (- Z.of_nat m - Z.of_nat k)%Z)) (Some (f k))) (ofC e (Cpow v k)) = ofC e (nterm k)) by exact (ofC_mul_rc e _ _).
    rewrite T in H. replace (is_finite N (ofC e (nterm k))) with true in H by reflexivity. cbn [negb] in H.
    replace (cadd N (ofC e (Cplus a (Csum nterm k))) (ofC e (nterm k))) with (ofC e (Cplus a (Csum nterm (k + 2))) : cpx N) in H.
    2:{ replace (k + 2)%nat with (S (S k)) by lia. cbn [Csum]. rewrite (nterm_0 (S k)) by (try lia; rewrite even_flip, Hp; reflexivity).
        transitivity (ofC e (Cplus (Cplus a (Csum nterm k)) (nterm k)) : cpx N); [f_equal; ring|reflexivity]. }
    rewrite i64_ok in H by (unfold INT64_MIN, INT64_MAX; lia). cbn [bind] in H.
    match type of H with (if ?b then _ else _) = _ => destruct b end.
    + injection H as <-. exists (k + 2)%nat. split; [|reflexivity]. lia.
    + replace (Z.of_nat k + 2)%Z with (Z.of_nat (k + 2)) in H by lia.
      replace (cmul N (ofC e (Cpow v k)) (ofC e (Cmult v v))) with (ofC e (Cpow v (k + 2)) : cpx N) in H.
      2:{ replace (k + 2)%nat with (S (S k)) by lia. cbn [Cpow]. transitivity (ofC e (Cmult (Cpow v k) (Cmult v v)) : cpx N); [f_equal; ring|reflexivity]. }
      apply (IH (k + 2)%nat) in H; [exact H|lia|]. replace (k + 2)%nat with (S (S k)) by lia. rewrite !even_flip, Hp. reflexivity.
Qed.
Lemma unity_neg_ok fuel (z : C) w : Li_clog (NumR e) (ofC e z) = ofC e v -> v <> RtoC 0 -> Li_unity_neg N fuel (- Z.of_nat m) (ofC e z) = Val w ->
  exists K, (1 <= K <= 262)%nat /\ w = ofC e (Cplus (Cmult (RtoC (INR (fact m))) (Cinv (Cpow (Copp v) (S m)))) (Csum nterm K)).
Proof.
  intros V V0 H. unfold Li_unity_neg in H. cbv zeta in H. rewrite (clogQ e q Hq), V in H.
  rewrite !i64_ok in H by (unfold INT64_MIN, INT64_MAX; lia). cbn [bind] in H.
  change (copp N (ofC e v)) with (copp (NumR e) (ofC e v)) in H. rewrite ofC_opp in H. replace (- Z.of_nat m - 1)%Z with (- Z.of_nat (S m))%Z in H by lia.
  rewrite (stable_pow_ok e q) in H; [|exact Hq| |unfold is_int64, INT64_MIN, INT64_MAX; lia].
  2:{ intros E. apply V0. replace v with (Copp (Copp v)) by ring. rewrite E. ring. }
  cbn [bind] in H. set (P := Cinv (Cpow (Copp v) (S m))) in *.
  assert (G : ntgamma N (ofZ N (1 - - Z.of_nat m)) = Some (INR (fact m))).
  { cbn [ntgamma ofZ NumQ NumR]. unfold otgamma. rewrite Zfloor_IZR. destruct (Req_EM_T _ _) as [_|D]; [|contradiction]. destruct (Z.leb_spec 1 (1 - - Z.of_nat m)); [|lia].
    do 3 f_equal. lia. }
  rewrite G in H. replace (cmul_rc N (Some (INR (fact m))) (ofC e P)) with (ofC e (Cmult (RtoC (INR (fact m))) P) : cpx N) in H by (symmetry; exact (ofC_mul_rc e _ _)).
  set (a := Cmult (RtoC (INR (fact m))) P) in *. rewrite even_Zeven in H.
  change (cmul N (ofC e v) (ofC e v)) with (cmul (NumR e) (ofC e v) (ofC e v)) in H. rewrite ofC_mul in H.
  destruct (Z.even (- Z.of_nat m)) eqn:E.
  - apply (neg_loop_ok a fuel 1 w); [lia|change 1%nat with (S 0); rewrite even_flip; cbn [Z.of_nat]; rewrite Z.sub_0_r, E; reflexivity|].
    change (Z.of_nat 1) with 1%Z. replace (Cpow v 1) with v by (cbn [Cpow]; ring). cbn [Csum]. rewrite (nterm_0 0) by (try lia; cbn [Z.of_nat]; rewrite Z.sub_0_r; exact E).
    replace (Cplus a (Cplus (RtoC 0) (RtoC 0))) with a by ring. exact H.
  - change (zeta N) with (zeta (NumR e)) in H. rewrite Hz in H by lia. cbn [bind] in H.
    apply (neg_loop_ok a fuel 2 w); [lia|rewrite !even_flip; cbn [Z.of_nat]; rewrite Z.sub_0_r, E; reflexivity|].
    change (Z.of_nat 2) with 2%Z. replace (Cpow v 2) with (Cmult v v) by (cbn [Cpow]; ring). cbn [Csum]. rewrite (nterm_0 1) by (try lia; change 1%nat with (S 0); rewrite even_flip; cbn [Z.of_nat]; rewrite Z.sub_0_r, E; reflexivity).
    replace (ofC e (Cplus a (Cplus (Cplus (RtoC 0) (nterm 0)) (RtoC 0))) : cpx N) with (cadd_cr N (ofC e a) (Some (zc (- Z.of_nat m)%Z))); [exact H|].
    transitivity (ofC e (Cplus a (RtoC (zc (- Z.of_nat m)%Z))) : cpx N); [exact (ofC_add_cr e _ _)|]. f_equal. unfold nterm. cbn [Z.of_nat Cpow]. rewrite Z.sub_0_r, Hf0, Rmult_1_r. ring.
Qed.
End Ng.
