(** * Integer side of zeta, neg_eta, inv_fac, harmonic: for every int64_t
    argument and every arithmetic, which calls are undefined behaviour. *)
From Coq Require Import ZArith List Bool Lia.
From Verif Require Import Num Outcome Model_Tables Model_Zeta.
Local Open Scope Z_scope.
Ltac Zify.zify_post_hook ::= Z.to_euclidean_division_equations.

Lemma i64_ok z : INT64_MIN <= z <= INT64_MAX -> i64 z = Val z.
Proof.
  unfold i64. intros H. destruct (Z.leb_spec INT64_MIN z); [|lia].
  destruct (Z.leb_spec z INT64_MAX); [reflexivity|lia].
Qed.
Lemma i64_ub z : ~ (INT64_MIN <= z <= INT64_MAX) -> i64 z = Ub.
Proof.
  unfold i64. intros H. destruct (Z.leb_spec INT64_MIN z); [|reflexivity].
  destruct (Z.leb_spec z INT64_MAX); [lia|reflexivity].
Qed.
Lemma zref_ok {A} (l : list A) i : 0 <= i < Z.of_nat (length l) -> exists a, zref l i = Val a /\ nth_error l (Z.to_nat i) = Some a.
Proof.
  intros H. unfold zref. destruct (Z.ltb_spec i 0); [lia|].
  destruct (nth_error l (Z.to_nat i)) eqn:E; [eauto|].
  apply nth_error_None in E. lia.
Qed.
Lemma zref_ub {A} (l : list A) i : ~ (0 <= i < Z.of_nat (length l)) -> zref l i = Ub.
Proof.
  intros H. unfold zref. destruct (Z.ltb_spec i 0); [reflexivity|].
  destruct (nth_error l (Z.to_nat i)) eqn:E; [|reflexivity].
  assert (nth_error l (Z.to_nat i) <> None) as C by congruence. apply nth_error_Some in C. lia.
Qed.
Lemma tref_ok (N : num) t i : 0 <= i < Z.of_nat (length t) ->
  exists d, nth_error t (Z.to_nat i) = Some d /\ tref N t i = Val (lit N (fst d) (snd d)).
Proof.
  intros H. destruct (zref_ok t i H) as (a & A & B). exists a. unfold tref. rewrite A. cbn. auto.
Qed.
Lemma even_spec n : is_even n = true <-> exists k, n = 2 * k.
Proof. unfold is_even. rewrite Z.eqb_eq. split; [intros H; exists (Z.quot n 2); lia | intros [k ->]; lia]. Qed.
Lemma even_false n : is_even n = false <-> exists k, n = 2 * k + 1.
Proof. unfold is_even. rewrite Z.eqb_neq. split; [intros H; exists (n / 2); lia | intros [k ->]; lia]. Qed.
Lemma even_Zeven n : is_even n = Z.even n.
Proof.
  destruct (is_even n) eqn:E; symmetry.
  - apply even_spec in E. destruct E as [k ->]. rewrite Z.even_mul. reflexivity.
  - apply even_false in E. destruct E as [k ->]. rewrite Z.even_add, Z.even_mul. reflexivity.
Qed.

Section S.
Variable N : num.

(** the four shapes of a zeta result *)
Lemma zeta_neg_even n : is_int64 n -> n < 0 -> is_even n = true -> zeta N n = Val (lit N 0 0).
Proof. intros _ H E. unfold zeta. destruct (Z.ltb_spec n 0); [|lia]. rewrite E. reflexivity. Qed.

Lemma zeta_neg_odd_table m : 1 <= m <= 130 -> exists d, nth_error ZETAS_NEG (Z.to_nat (m - 1)) = Some d /\
   zeta N (1 - 2 * m) = Val (lit N (fst d) (snd d)).
Proof.
  intros H. destruct (tref_ok N ZETAS_NEG (m - 1)) as (d & A & B). { change (Z.of_nat (length ZETAS_NEG)) with 130. lia. }
  exists d. split; auto. unfold zeta. destruct (Z.ltb_spec (1 - 2*m) 0); [|lia].
  destruct (is_even (1 - 2*m)) eqn:E. { apply even_spec in E. destruct E as [k Hk]. lia. }
  rewrite i64_ok by (unfold INT64_MIN, INT64_MAX; lia). cbn [bind].
  rewrite i64_ok by (unfold INT64_MIN, INT64_MAX; lia). cbn [bind].
  replace (Z.quot (- (1 + (1 - 2*m))) 2) with (m - 1) by lia.
  change (Z.of_nat (length ZETAS_NEG)) with 130. destruct (Z.ltb_spec (m-1) 130); [exact B|lia].
Qed.

Lemma zeta_neg_odd_inf m : 131 <= m -> is_int64 (1 - 2 * m) -> 1 - 2 * m <> INT64_MIN + 1 ->
   zeta N (1 - 2 * m) = Val (if Z.even m then inf N else opp N (inf N)).
Proof.
  intros H I D. unfold is_int64, INT64_MIN, INT64_MAX in *. unfold zeta. destruct (Z.ltb_spec (1 - 2*m) 0); [|lia].
  destruct (is_even (1 - 2*m)) eqn:E. { apply even_spec in E. destruct E as [k Hk]. lia. }
  rewrite i64_ok by (unfold INT64_MIN, INT64_MAX; lia). cbn [bind].
  rewrite i64_ok by (unfold INT64_MIN, INT64_MAX; lia). cbn [bind].
  replace (Z.quot (- (1 + (1 - 2*m))) 2) with (m - 1) by lia.
  change (Z.of_nat (length ZETAS_NEG)) with 130. destruct (Z.ltb_spec (m-1) 130); [lia|].
  rewrite i64_ok by (unfold INT64_MIN, INT64_MAX; lia). cbn [bind].
  replace (Z.quot (1 - (1 - 2*m)) 2) with m by lia. rewrite even_Zeven. destruct (Z.even m); reflexivity.
Qed.

Lemma zeta_pos_table n : 2 <= n <= 33 -> exists d, nth_error ZETAS_POS (Z.to_nat (n - 2)) = Some d /\
   zeta N n = Val (lit N (fst d) (snd d)).
Proof.
  intros H. destruct (tref_ok N ZETAS_POS (n - 2)) as (d & A & B). { change (Z.of_nat (length ZETAS_POS)) with 32. lia. }
  exists d. split; auto. unfold zeta. destruct (Z.ltb_spec n 0); [lia|].
  destruct (Z.eqb_spec n 0); [lia|]. destruct (Z.eqb_spec n 1); [lia|].
  rewrite i64_ok by (unfold INT64_MIN, INT64_MAX; lia). cbn [bind].
  change (Z.of_nat (length ZETAS_POS)) with 32. destruct (Z.ltb_spec (n-2) 32); [exact B|lia].
Qed.

Lemma zeta_pos_large n : 34 <= n -> is_int64 n ->
   zeta N n = Val (div N (lit N 1 0) (sub N (lit N 1 0) (npow N (lit N 5 (-1)) (ofZ N n)))).
Proof.
  intros H I. unfold is_int64, INT64_MIN, INT64_MAX in *. unfold zeta. destruct (Z.ltb_spec n 0); [lia|].
  destruct (Z.eqb_spec n 0); [lia|]. destruct (Z.eqb_spec n 1); [lia|].
  rewrite i64_ok by (unfold INT64_MIN, INT64_MAX; lia). cbn [bind].
  change (Z.of_nat (length ZETAS_POS)) with 32. destruct (Z.ltb_spec (n-2) 32); [lia|reflexivity].
Qed.

Lemma odd_neg_form n : n < 0 -> is_even n = false -> exists m, 1 <= m /\ n = 1 - 2 * m.
Proof. intros H E. apply even_false in E. destruct E as [k Hk]. exists (- k). lia. Qed.

Theorem zeta_ub_iff n : is_int64 n -> (zeta N n = Ub <-> n = INT64_MIN + 1).
Proof.
  intros I. split.
  - intros U. destruct (Z.ltb_spec n 0) as [Hn|Hn].
    + destruct (is_even n) eqn:E. { rewrite zeta_neg_even in U by auto. discriminate. }
      destruct (odd_neg_form n Hn E) as (m & Hm & ->).
      destruct (Z.le_gt_cases m 130).
      * destruct (zeta_neg_odd_table m ltac:(lia)) as (d & _ & B). congruence.
      * destruct (Z.eq_dec (1 - 2*m) (INT64_MIN + 1)); [assumption|].
        rewrite zeta_neg_odd_inf in U by (auto; lia). discriminate.
    + destruct (Z.eq_dec n 0). { subst. discriminate. }
      destruct (Z.eq_dec n 1). { subst. discriminate. }
      destruct (Z.le_gt_cases n 33).
      * destruct (zeta_pos_table n ltac:(lia)) as (d & _ & B). congruence.
      * rewrite zeta_pos_large in U by (auto; lia). discriminate.
  - intros ->. reflexivity.
Qed.

Theorem zeta_fuel n : zeta N n <> NoFuel.
Proof.
  unfold zeta, tref, zref, i64, bind. 
  repeat match goal with |- context[if ?b then _ else _] => destruct b end;
  repeat match goal with |- context[match nth_error ?l ?i with _ => _ end] => destruct (nth_error l i) end; discriminate.
Qed.

(** neg_eta *)
Lemma neg_eta_neg_even n : n < 0 -> is_even n = true -> neg_eta N n = Val (lit N 0 0).
Proof. intros H E. unfold neg_eta. destruct (Z.ltb_spec n 0); [|lia]. rewrite E. reflexivity. Qed.

Lemma neg_eta_neg_odd_table m : 1 <= m <= 109 -> exists d, nth_error NEG_ETA_NEG_N (Z.to_nat (m - 1)) = Some d /\
   neg_eta N (1 - 2 * m) = Val (lit N (fst d) (snd d)).
Proof.
  intros H. destruct (tref_ok N NEG_ETA_NEG_N (m - 1)) as (d & A & B). { change (Z.of_nat (length NEG_ETA_NEG_N)) with 109. lia. }
  exists d. split; auto. unfold neg_eta. destruct (Z.ltb_spec (1 - 2*m) 0); [|lia].
  destruct (is_even (1 - 2*m)) eqn:E. { apply even_spec in E. destruct E as [k Hk]. lia. }
  rewrite i64_ok by (unfold INT64_MIN, INT64_MAX; lia). cbn [bind].
  rewrite i64_ok by (unfold INT64_MIN, INT64_MAX; lia). cbn [bind].
  replace (Z.quot (- (1 + (1 - 2*m))) 2) with (m - 1) by lia.
  change (Z.of_nat (length NEG_ETA_NEG_N)) with 109. destruct (Z.ltb_spec (m-1) 109); [exact B|lia].
Qed.

Lemma neg_eta_neg_odd_inf m : 110 <= m -> is_int64 (1 - 2 * m) -> 1 - 2 * m <> INT64_MIN + 1 ->
   neg_eta N (1 - 2 * m) = Val (if Z.even m then inf N else opp N (inf N)).
Proof.
  intros H I D. unfold is_int64, INT64_MIN, INT64_MAX in *. unfold neg_eta. destruct (Z.ltb_spec (1 - 2*m) 0); [|lia].
  destruct (is_even (1 - 2*m)) eqn:E. { apply even_spec in E. destruct E as [k Hk]. lia. }
  rewrite i64_ok by (unfold INT64_MIN, INT64_MAX; lia). cbn [bind].
  rewrite i64_ok by (unfold INT64_MIN, INT64_MAX; lia). cbn [bind].
  replace (Z.quot (- (1 + (1 - 2*m))) 2) with (m - 1) by lia.
  change (Z.of_nat (length NEG_ETA_NEG_N)) with 109. destruct (Z.ltb_spec (m-1) 109); [lia|].
  rewrite i64_ok by (unfold INT64_MIN, INT64_MAX; lia). cbn [bind].
  replace (Z.quot (1 - (1 - 2*m)) 2) with m by lia. rewrite even_Zeven. destruct (Z.even m); reflexivity.
Qed.

Lemma neg_eta_pos_table n : 1 <= n <= 54 -> exists d, nth_error NEG_ETA (Z.to_nat (n - 1)) = Some d /\
   neg_eta N n = Val (lit N (fst d) (snd d)).
Proof.
  intros H. destruct (tref_ok N NEG_ETA (n - 1)) as (d & A & B). { change (Z.of_nat (length NEG_ETA)) with 54. lia. }
  exists d. split; auto. unfold neg_eta. destruct (Z.ltb_spec n 0); [lia|].
  destruct (Z.eqb_spec n 0); [lia|]. change (Z.of_nat (length NEG_ETA)) with 54. destruct (Z.leb_spec n 54); [|lia].
  rewrite i64_ok by (unfold INT64_MIN, INT64_MAX; lia). cbn [bind]. exact B.
Qed.

Lemma neg_eta_pos_large n : 55 <= n -> neg_eta N n = Val (lit N (-1) 0).
Proof.
  intros H. unfold neg_eta. destruct (Z.ltb_spec n 0); [lia|].
  destruct (Z.eqb_spec n 0); [lia|]. change (Z.of_nat (length NEG_ETA)) with 54. destruct (Z.leb_spec n 54); [lia|reflexivity].
Qed.

Theorem neg_eta_ub_iff n : is_int64 n -> (neg_eta N n = Ub <-> n = INT64_MIN + 1).
Proof.
  intros I. split.
  - intros U. destruct (Z.ltb_spec n 0) as [Hn|Hn].
    + destruct (is_even n) eqn:E. { rewrite neg_eta_neg_even in U by auto. discriminate. }
      destruct (odd_neg_form n Hn E) as (m & Hm & ->).
      destruct (Z.le_gt_cases m 109).
      * destruct (neg_eta_neg_odd_table m ltac:(lia)) as (d & _ & B). congruence.
      * destruct (Z.eq_dec (1 - 2*m) (INT64_MIN + 1)); [assumption|].
        rewrite neg_eta_neg_odd_inf in U by (auto; lia). discriminate.
    + destruct (Z.eq_dec n 0). { subst. discriminate. }
      destruct (Z.le_gt_cases n 54).
      * destruct (neg_eta_pos_table n ltac:(lia)) as (d & _ & B). congruence.
      * rewrite neg_eta_pos_large in U by lia. discriminate.
  - intros ->. reflexivity.
Qed.

Theorem neg_eta_fuel n : neg_eta N n <> NoFuel.
Proof.
  unfold neg_eta, tref, zref, i64, bind.
  repeat match goal with |- context[if ?b then _ else _] => destruct b end;
  repeat match goal with |- context[match nth_error ?l ?i with _ => _ end] => destruct (nth_error l i) end; discriminate.
Qed.

(** inv_fac *)
Lemma inv_fac_neg n : n < 0 -> inv_fac N n = Val (nan N).
Proof. intros H. unfold inv_fac. destruct (Z.ltb_spec n 0); [reflexivity|lia]. Qed.
Lemma inv_fac_table n : 0 <= n <= 177 -> exists d, nth_error INVERSE_FACTORIALS (Z.to_nat n) = Some d /\
  inv_fac N n = Val (lit N (fst d) (snd d)).
Proof.
  intros H. destruct (tref_ok N INVERSE_FACTORIALS n) as (d & A & B). { change (Z.of_nat (length INVERSE_FACTORIALS)) with 178. lia. }
  exists d. split; auto. unfold inv_fac. destruct (Z.ltb_spec n 0); [lia|].
  change (Z.of_nat (length INVERSE_FACTORIALS)) with 178. destruct (Z.ltb_spec n 178); [exact B|lia].
Qed.
Lemma inv_fac_large n : 178 <= n -> inv_fac N n = Val (lit N 0 0).
Proof.
  intros H. unfold inv_fac. destruct (Z.ltb_spec n 0); [lia|].
  change (Z.of_nat (length INVERSE_FACTORIALS)) with 178. destruct (Z.ltb_spec n 178); [lia|reflexivity].
Qed.
Theorem inv_fac_defined n : exists v, inv_fac N n = Val v.
Proof.
  destruct (Z.ltb_spec n 0). { rewrite inv_fac_neg by lia. eauto. }
  destruct (Z.le_gt_cases n 177). { destruct (inv_fac_table n ltac:(lia)) as (d & _ & ->). eauto. }
  rewrite inv_fac_large by lia. eauto.
Qed.

(** harmonic *)
Theorem harmonic_ub_iff n : is_int64 n -> (harmonic N n = Ub <-> n = INT64_MAX).
Proof.
  intros I. unfold is_int64, INT64_MIN, INT64_MAX in *. unfold harmonic.
  destruct (Z.leb_spec n 0); [split; [discriminate|lia]|].
  destruct (Z.ltb_spec n 20); [split; [discriminate|lia]|].
  destruct (Z.eq_dec n (2^63 - 1)) as [->|D].
  - rewrite i64_ub by (unfold INT64_MIN, INT64_MAX; lia). cbn. tauto.
  - rewrite i64_ok by (unfold INT64_MIN, INT64_MAX; lia). cbn. split; [discriminate|lia].
Qed.
Theorem harmonic_fuel n : harmonic N n <> NoFuel.
Proof.
  unfold harmonic, i64, bind.
  repeat match goal with |- context[if ?b then _ else _] => destruct b end; discriminate.
Qed.
End S.
