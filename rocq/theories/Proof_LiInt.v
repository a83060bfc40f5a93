(** * Integer arithmetic and loop termination of Li(n,z) *)
From Coq Require Import ZArith List Bool Lia.
From Flocq Require Import IEEE754.BinarySingleNaN.
From Verif Require Import Num Outcome NumB Model_Tables Model_Zeta Model_Li Proof_Int.
Import ListNotations.
Local Open Scope Z_scope.

Ltac un := unfold is_int64, INT64_MIN, INT64_MAX in *.

Section S.
Variable N : num.

Lemma zeta_val n : is_int64 n -> n <> INT64_MIN + 1 -> exists v, zeta N n = Val v.
Proof.
  intros I D. destruct (zeta N n) as [v| |] eqn:E; [eauto| |].
  - apply zeta_ub_iff in E; tauto.
  - elim (zeta_fuel N n E).
Qed.
Lemma neg_eta_val n : is_int64 n -> n <> INT64_MIN + 1 -> exists v, neg_eta N n = Val v.
Proof.
  intros I D. destruct (neg_eta N n) as [v| |] eqn:E; [eauto| |].
  - apply neg_eta_ub_iff in E; tauto.
  - elim (neg_eta_fuel N n E).
Qed.
Lemma harmonic_val n : is_int64 n -> n <> INT64_MAX -> exists v, harmonic N n = Val v.
Proof.
  intros I D. destruct (harmonic N n) as [v| |] eqn:E; [eauto| |].
  - apply harmonic_ub_iff in E; tauto.
  - elim (harmonic_fuel N n E).
Qed.

(** the plain series: the counter never overflows, and the loop bound k < INT64_MAX - 2 stops it *)
Lemma series_loop_no_ub n z : forall fuel k s p, 0 <= k < INT64_MAX - 2 -> Li_series_loop N fuel n z k s p <> Ub.
Proof.
  induction fuel as [|f IH]; intros k s p Hk; [discriminate|].
  cbn [Li_series_loop]. rewrite i64_ok by (un; lia). cbn [bind].
  destruct (negb _); [discriminate|]. destruct (_ && _)%bool eqn:E; [|discriminate].
  apply andb_prop in E. destruct E as [_ E]. apply Z.ltb_lt in E. apply IH. lia.
Qed.
Lemma series_loop_stops n z : forall fuel k s p, 0 <= k < INT64_MAX - 2 -> INT64_MAX - 2 - k <= Z.of_nat fuel ->
  exists v, Li_series_loop N fuel n z k s p = Val v.
Proof.
  induction fuel as [|f IH]; intros k s p Hk Hf; [lia|].
  cbn [Li_series_loop]. rewrite i64_ok by (un; lia). cbn [bind].
  destruct (negb _); [eauto|]. destruct (_ && _)%bool eqn:E; [|eauto].
  apply andb_prop in E. destruct E as [_ E]. apply Z.ltb_lt in E. apply IH; lia.
Qed.
Lemma series_no_ub fuel n z : Li_series N fuel n z <> Ub.
Proof. apply series_loop_no_ub. un; lia. Qed.
Lemma series_stops fuel n z : 2 ^ 63 <= Z.of_nat fuel -> exists v, Li_series N fuel n z = Val v.
Proof. intros H. apply series_loop_stops; un; lia. Qed.

(** ** expansion about z = 1, positive order *)
Lemma unity_pos_loop1_val n lnz : is_int64 n -> forall cnt j s p, 0 <= j -> j + Z.of_nat cnt <= n - 1 ->
  exists v, Li_unity_pos_loop1 N cnt j n lnz s p = Val v.
Proof.
  intros I. induction cnt as [|c IH]; intros j s p Hj Hc; [eexists; reflexivity|].
  cbn [Li_unity_pos_loop1]. destruct (zeta_val (n - j)) as [v ->]; [un; lia|un; lia|]. cbn [bind]. apply IH; lia.
Qed.

(** largest j for which (j-1)*j is an int64_t *)
Definition JMAX : Z := 3037000500.
Lemma jj_ok j : 0 <= j <= JMAX -> is_int64 ((j - 1) * j).
Proof. intros H. unfold JMAX in H. un. nia. Qed.
Lemma jj_ub j : JMAX < j -> ~ is_int64 ((j - 1) * j).
Proof. intros H. unfold JMAX in H. un. nia. Qed.

Lemma unity_pos_loop2_no_ub n lnz2 : 0 <= n -> is_int64 n -> forall fuel j s p, n <= j -> j + 2 * Z.of_nat fuel <= JMAX + 2 ->
  Li_unity_pos_loop2 N fuel j n lnz2 s p <> Ub.
Proof.
  intros Hn I. induction fuel as [|f IH]; intros j s p Hj Hf; [discriminate|].
  cbn [Li_unity_pos_loop2]. destruct (j <? _) eqn:E; [|discriminate].
  rewrite (i64_ok ((j - 1) * j)) by (apply jj_ok; unfold JMAX in *; lia). cbn [bind].
  rewrite (i64_ok (n - j)) by (unfold JMAX in *; un; lia). cbn [bind].
  destruct (zeta_val (n - j)) as [v ->]; [unfold JMAX in *; un; lia|unfold JMAX in *; un; lia|]. cbn [bind].
  destruct (ceqb _ _ _); [discriminate|]. rewrite i64_ok by (unfold JMAX in *; un; lia). cbn [bind]. apply IH; lia.
Qed.

Lemma unity_pos_no_ub fuel n z : 2 <= n -> n + 1 + 2 * Z.of_nat fuel <= JMAX -> is_int64 n -> Li_unity_pos N fuel n z <> Ub.
Proof.
  intros Hn Hf I. unfold Li_unity_pos. cbv zeta.
  assert (n <= JMAX) by lia.
  destruct (zeta_val n) as [v ->]; [un; lia|un; lia|]. cbn [bind].
  rewrite (i64_ok (n - 1)) by (un; lia). cbn [bind].
  destruct (unity_pos_loop1_val n (Li_clog N z) I (Z.to_nat (n - 1 - 1)) 1 (v, lit N 0 0) (lit N 1 0, lit N 0 0)) as [[s p] ->]; [lia|lia|].
  cbn [bind]. destruct (harmonic_val (n - 1)) as [h ->]; [un; lia|un; lia|]. cbn [bind].
  destruct (zeta_val 0) as [z0 ->]; [un; lia|un; lia|]. cbn [bind].
  rewrite (i64_ok (n + 1)) by (unfold JMAX in *; un; lia). cbn [bind].
  destruct (zeta_val (-1)) as [z1 ->]; [un; lia|un; lia|]. cbn [bind].
  rewrite (i64_ok (n + 3)) by (unfold JMAX in *; un; lia). cbn [bind].
  apply unity_pos_loop2_no_ub; unfold JMAX in *; try lia. un; lia.
Qed.

(** from n = 3037000498 on the first product (j-1)*j of the second loop overflows; at the very end
    of the range the loop is not entered, but n+1 or n+3 overflows for the last three n *)
Lemma unity_pos_ub_iff fuel n z : JMAX - 3 < n -> is_int64 n ->
  (Li_unity_pos N (S fuel) n z = Ub <-> ~ (INT64_MAX - 5 <= n <= INT64_MAX - 3)).
Proof.
  intros Hn I. unfold Li_unity_pos. cbv zeta. unfold JMAX in *.
  destruct (zeta_val n) as [v ->]; [un; lia|un; lia|]. cbn [bind].
  rewrite (i64_ok (n - 1)) by (un; lia). cbn [bind].
  destruct (unity_pos_loop1_val n (Li_clog N z) I (Z.to_nat (n - 1 - 1)) 1 (v, lit N 0 0) (lit N 1 0, lit N 0 0)) as [[s p] ->]; [lia|lia|].
  cbn [bind]. destruct (harmonic_val (n - 1)) as [h ->]; [un; lia|un; lia|]. cbn [bind].
  destruct (zeta_val 0) as [z0 ->]; [un; lia|un; lia|]. cbn [bind].
  destruct (Z.le_gt_cases (n + 1) INT64_MAX) as [A|A].
  2:{ rewrite (i64_ub (n + 1)) by (un; lia). cbn [bind]. split; [intros _; un; lia|reflexivity]. }
  rewrite (i64_ok (n + 1)) by (un; lia). cbn [bind].
  destruct (zeta_val (-1)) as [z1 ->]; [un; lia|un; lia|]. cbn [bind].
  destruct (Z.le_gt_cases (n + 3) INT64_MAX) as [B|B].
  2:{ rewrite (i64_ub (n + 3)) by (un; lia). cbn [bind]. split; [intros _; un; lia|reflexivity]. }
  rewrite (i64_ok (n + 3)) by (un; lia). cbn [bind]. cbn [Li_unity_pos_loop2].
  destruct (n + 3 <? INT64_MAX - 2) eqn:E.
  - rewrite (i64_ub ((n + 3 - 1) * (n + 3))) by (apply jj_ub; unfold JMAX; lia). cbn [bind].
    apply Z.ltb_lt in E. split; [intros _; lia|reflexivity].
  - apply Z.ltb_ge in E. split; [discriminate|]. intros Q. elim Q. lia.
Qed.

(** ** expansion about z = 1, negative order *)
Lemma stable_pow_ub z n : is_int64 n -> n <> INT64_MIN -> stable_pow N z n <> Ub.
Proof.
  intros I H. unfold stable_pow.
  destruct (eqb _ _ _); [discriminate|]. destruct (eqb _ _ _); [|discriminate]. cbv zeta.
  destruct (_ =? _); [discriminate|]. destruct (_ =? _) ; [discriminate|].
  rewrite i64_ok by (un; lia). cbn [bind]. destruct (_ =? _); discriminate.
Qed.
Lemma stable_pow_val z n : is_int64 n -> (n <> INT64_MIN \/ Z.even n = true) -> exists v, stable_pow N z n = Val v.
Proof.
  intros I H. unfold stable_pow.
  destruct (eqb _ _ _); [eauto|]. destruct (eqb _ _ _); [|eauto]. cbv zeta.
  destruct (_ =? _); [eauto|]. destruct (Z.rem n 2 =? 0) eqn:E; [eauto|].
  assert (n <> INT64_MIN).
  { destruct H as [H|H]; [exact H|]. change (is_even n = false) in E. rewrite even_Zeven in E. congruence. }
  rewrite i64_ok by (un; lia). cbn [bind]. destruct (Z.rem (n - 1) 4 =? 0); eexists; reflexivity.
Qed.

Lemma unity_neg_loop_no_ub n : is_int64 n -> n <= 0 -> forall fuel k lnz2 lk s, 0 <= k ->
  INT64_MIN + 2 <= n - k - 2 * Z.of_nat fuel ->
  Li_unity_neg_loop N fuel n k lnz2 lk s <> Ub.
Proof.
  intros I Hn. induction fuel as [|f IH]; intros k lnz2 lk s Hk Hf; [discriminate|].
  cbn [Li_unity_neg_loop]. rewrite (i64_ok (n - k)) by (un; lia). cbn [bind].
  destruct (zeta_val (n - k)) as [v ->]; [un; lia|un; lia|]. cbn [bind].
  destruct (inv_fac_defined N k) as [w ->]. cbn [bind]. cbv zeta.
  destruct (negb _); [discriminate|]. rewrite i64_ok by (un; lia). cbn [bind].
  destruct (ceqb _ _ _); [discriminate|]. apply IH; lia.
Qed.
Lemma unity_neg_no_ub fuel n z : is_int64 n -> n <= 0 -> INT64_MIN + 4 <= n - 2 * Z.of_nat fuel ->
  Li_unity_neg N fuel n z <> Ub.
Proof.
  intros I Hn Hf. unfold Li_unity_neg. cbv zeta.
  rewrite (i64_ok (1 - n)) by (un; lia). cbn [bind]. rewrite (i64_ok (n - 1)) by (un; lia). cbn [bind].
  destruct (stable_pow_val (copp N (Li_clog N z)) (n - 1)) as [v ->]; [un; lia|un; lia|]. cbn [bind].
  destruct (is_even n).
  - apply unity_neg_loop_no_ub; try lia. exact I.
  - destruct (zeta_val n) as [w ->]; [un; lia|un; lia|]. cbn [bind]. apply unity_neg_loop_no_ub; try lia. exact I.
Qed.
Lemma unity_neg_ub fuel n z : n = INT64_MIN \/ n = INT64_MIN + 1 -> Li_unity_neg N fuel n z = Ub.
Proof.
  intros H. unfold Li_unity_neg. cbv zeta. rewrite i64_ub by (un; lia). reflexivity.
Qed.

(** ** the inversion remainder *)
Lemma rest_loop_val n : is_int64 n -> forall cnt k lnz2 s p, Z.of_nat cnt <= k -> 0 <= k <= n ->
  exists v, Li_rest_loop N cnt k n lnz2 s p = Val v.
Proof.
  intros I. induction cnt as [|c IH]; intros k lnz2 s p Hc Hk; [eexists; reflexivity|].
  cbn [Li_rest_loop]. destruct (inv_fac_defined N (n - 2 * k)) as [w ->]. cbn [bind].
  destruct (eqb _ _ _); [eauto|].
  assert (exists v, neg_eta N (2 * k) = Val v) as [v ->].
  { unfold neg_eta. destruct (2 * k <? 0) eqn:E1; [apply Z.ltb_lt in E1; lia|].
    destruct (2 * k =? 0); [eauto|]. destruct (2 * k <=? Z.of_nat (length NEG_ETA)) eqn:E2; [|eauto].
    destruct (neg_eta_pos_table N (2 * k)) as (d & _ & Q).
    { apply Z.leb_le in E2. change (Z.of_nat (length NEG_ETA)) with 54 in E2. lia. }
    unfold neg_eta in Q. rewrite E1 in Q. destruct (2 * k =? 0) eqn:E3; [apply Z.eqb_eq in E3; lia|].
    rewrite E2 in Q. rewrite Q. eauto. }
  cbn [bind]. cbv zeta. destruct (ceqb _ _ _); [eauto|]. apply IH; lia.
Qed.
Lemma rest_val n z : is_int64 n -> 0 <= n -> exists v, Li_rest N n z = Val v.
Proof.
  intros I Hn. unfold Li_rest. cbv zeta.
  set (km := if is_even n then Z.quot n 2 else Z.quot (n - 1) 2).
  assert (K : 0 <= km <= n).
  { unfold km. destruct (is_even n) eqn:E.
    - rewrite Z.quot_div_nonneg by lia. split; [apply Z.div_pos; lia|]. apply Z.div_le_upper_bound; lia.
    - apply even_false in E. destruct E as [q E]. rewrite Z.quot_div_nonneg by lia. split; [apply Z.div_pos; lia|]. apply Z.div_le_upper_bound; lia. }
  match goal with |- context [Li_rest_loop N ?a ?b n ?d ?e ?f] => destruct (rest_loop_val n I a b d e f) as [r ->]; [lia|lia|] end.
  cbn [bind]. destruct r as [s|[s p]]; [eauto|]. destruct (inv_fac_defined N n) as [w ->]. cbn [bind]. eauto.
Qed.

(** ** Li as a whole: no overflow when every loop runs at most [fuel] times *)
Theorem Li_no_ub depth fuel n : is_int64 n -> INT64_MIN + 4 + 2 * Z.of_nat fuel <= n -> n <= JMAX - 1 - 2 * Z.of_nat fuel ->
  forall z, Li N depth fuel n z <> Ub.
Proof.
  intros I L U. induction depth as [|d IH]; intros z; cbn [Li]; cbv zeta.
  all: destruct (_ || _)%bool; [discriminate|]; destruct (_ || _)%bool; [discriminate|].
  all: destruct (_ && _)%bool; [discriminate|].
  all: destruct (_ && _)%bool; [destruct (n <=? 0) eqn:E; [discriminate|];
         apply Z.leb_gt in E; destruct (zeta_val n) as [v ->]; [un; lia|un; lia|discriminate] |].
  all: destruct (_ && _)%bool; [destruct (neg_eta_val n) as [v ->]; [un; lia|un; lia|discriminate] |].
  all: destruct (n <? -1) eqn:E1; [destruct (ltb _ _ _); [apply series_no_ub|]; destruct (ltb _ _ _); [apply unity_neg_no_ub; [exact I|lia|lia]|] |].
  1: discriminate.
  2: { rewrite (i64_ok (n - 1)) by (un; lia). cbn [bind].
       destruct (Li N d fuel n (csqrt N z)) as [a| |] eqn:A; [|elim (IH _ A)|discriminate]. cbn [bind].
       destruct (Li N d fuel n (copp N (csqrt N z))) as [b| |] eqn:B; [|elim (IH _ B)|discriminate]. discriminate. }
  all: repeat match goal with |- context [if ?m =? ?k then _ else _] => destruct (m =? k) eqn:?; [discriminate|] end.
  all: destruct (leb _ _ _); [apply series_no_ub|]; destruct (leb _ _ _).
  all: rewrite ?Z.eqb_neq, ?Z.ltb_ge in *.
  1, 3: destruct (Li_series N fuel n (cdiv_rc N (lit N 1 0) z)) as [a| |] eqn:A; [|elim (series_no_ub _ _ _ A)|discriminate];
        cbn [bind]; destruct (rest_val n z I) as [r ->]; [lia|]; discriminate.
  all: apply unity_pos_no_ub; try lia; un; lia.
Qed.
End S.

(** ** double arithmetic: the expansion about z = 1 stops as soon as zeta overflows *)
Section B.
Variable L : libm 53 1024.
Notation N := (B64 L).

Lemma inf_times_not_finite s (f : f64) : isfinite N (Bmult mode_NE f (B754_infinity s)) = false.
Proof. destruct f as [[]|[]| |[] ? ? ?]; destruct s; reflexivity. Qed.

Lemma inf_cmul_rc s (z : cpx N) : Model_Li.is_finite N (cmul_rc N (B754_infinity s : N) z) = false.
Proof. unfold Model_Li.is_finite, cmul_rc. cbn [fst snd]. change (mul N) with (Bmult mode_NE : f64 -> f64 -> f64). rewrite inf_times_not_finite. reflexivity. Qed.
Lemma nan_cmul_rc (z : cpx N) : Model_Li.is_finite N (cmul_rc N (B754_nan : N) z) = false.
Proof. unfold Model_Li.is_finite, cmul_rc. cbn [fst snd]. change (mul N) with (Bmult mode_NE : f64 -> f64 -> f64).
  destruct (fst z : f64) as [[]|[]| |[] ? ? ?]; reflexivity. Qed.
Lemma inf_times s (f : f64) : (exists t, Bmult mode_NE (B754_infinity s) f = B754_infinity t) \/ Bmult mode_NE (B754_infinity s : f64) f = B754_nan.
Proof. destruct f as [[]|[]| |[] ? ? ?]; destruct s; cbn; eauto. Qed.

Lemma zeta_inf_neg n : n <= -261 -> is_even n = false -> is_int64 n -> n <> INT64_MIN + 1 ->
  exists s, zeta N n = Val (B754_infinity s).
Proof.
  intros H O I D. destruct (odd_neg_form n) as (m & Hm & ->); [lia|exact O|].
  rewrite (zeta_neg_odd_inf N m) by (try lia; assumption).
  destruct (Z.even m); eexists; reflexivity.
Qed.

(** each pass raises k by 2, and zeta(n-k) is infinite from n-k = -261 on *)
Lemma unity_neg_loop_stops n : is_int64 n -> INT64_MIN + 2 <= n <= 0 -> forall fuel k lnz2 lk s, 0 <= k -> is_even (n - k) = false ->
  INT64_MIN + 2 <= n - k ->
  (n - k + 263 <= 2 * Z.of_nat fuel) -> (1 <= fuel)%nat ->
  exists v, Li_unity_neg_loop N fuel n k lnz2 lk s = Val v.
Proof.
  intros I Hn. induction fuel as [|f IH]; intros k lnz2 lk s Hk Ho Hb Hf F1; [lia|].
  cbn [Li_unity_neg_loop]. rewrite (i64_ok (n - k)) by (un; lia). cbn [bind].
  destruct (Z.le_gt_cases (n - k) (-261)) as [C|C].
  - destruct (zeta_inf_neg (n - k)) as [sg ->]; [lia|exact Ho|un; lia|un; lia|]. cbn [bind].
    destruct (inv_fac_defined N k) as [w ->]. cbn [bind]. cbv zeta.
    change (mul N) with (Bmult mode_NE : f64 -> f64 -> f64).
    destruct (inf_times sg w) as [[t ->]| ->]; rewrite ?inf_cmul_rc, ?nan_cmul_rc; cbn [negb]; eauto.
  - destruct (zeta_val N (n - k)) as [v ->]; [un; lia|un; lia|]. cbn [bind].
    destruct (inv_fac_defined N k) as [w ->]. cbn [bind]. cbv zeta.
    destruct (negb _); [eauto|]. rewrite i64_ok by (un; lia). cbn [bind].
    destruct (ceqb _ _ _); [eauto|]. apply IH; try lia.
    + rewrite even_Zeven in *. rewrite <- Ho. replace (n - (k + 2)) with (n - k - 2 * 1) by lia.
      rewrite Z.even_sub, Z.even_mul. cbn. destruct (Z.even (n - k)); reflexivity.
    + un; lia.
Qed.
Theorem unity_neg_stops fuel n z : INT64_MIN + 4 <= n <= -1 -> (131 <= fuel)%nat -> exists v, Li_unity_neg N fuel n z = Val v.
Proof.
  intros Hn Hf. unfold Li_unity_neg. cbv zeta.
  rewrite (i64_ok (1 - n)) by (un; lia). cbn [bind]. rewrite (i64_ok (n - 1)) by (un; lia). cbn [bind].
  destruct (stable_pow_val N (copp N (Li_clog N z)) (n - 1)) as [v ->]; [un; lia|un; lia|]. cbn [bind].
  destruct (is_even n) eqn:E.
  - apply unity_neg_loop_stops; try lia; try (un; lia).
    rewrite even_Zeven in *. rewrite Z.even_sub, E. reflexivity.
  - destruct (zeta_val N n) as [w ->]; [un; lia|un; lia|]. cbn [bind].
    apply unity_neg_loop_stops; try lia; try (un; lia).
    rewrite even_Zeven in *. rewrite Z.even_sub, E. reflexivity.
Qed.
End B.

(** the four lowest orders overflow in the expansion about 1, whatever the arithmetic *)
Theorem unity_neg_ub_low (N : num) fuel n z : INT64_MIN <= n <= INT64_MIN + 3 -> Li_unity_neg N (S fuel) n z = Ub.
Proof.
  intros Hn. destruct (Z.le_gt_cases n (INT64_MIN + 1)) as [A|A]; [apply unity_neg_ub; lia|].
  unfold Li_unity_neg. cbv zeta.
  rewrite (i64_ok (1 - n)) by (un; lia). cbn [bind]. rewrite (i64_ok (n - 1)) by (un; lia). cbn [bind].
  destruct (stable_pow_val N (copp N (Li_clog N z)) (n - 1)) as [v ->]; [un; lia|un; lia|]. cbn [bind].
  assert (n = INT64_MIN + 2 \/ n = INT64_MIN + 3) as [-> | ->] by lia.
  - change (is_even (INT64_MIN + 2)) with true. cbn [Li_unity_neg_loop].
    change (i64 (INT64_MIN + 2 - 1)) with (Val (INT64_MIN + 1)). cbn [bind].
    rewrite (proj2 (zeta_ub_iff N (INT64_MIN + 1) ltac:(un; lia)) eq_refl). reflexivity.
  - change (is_even (INT64_MIN + 3)) with false.
    destruct (zeta_val N (INT64_MIN + 3)) as [w ->]; [un; lia|un; lia|]. cbn [bind]. cbn [Li_unity_neg_loop].
    change (i64 (INT64_MIN + 3 - 2)) with (Val (INT64_MIN + 1)). cbn [bind].
    rewrite (proj2 (zeta_ub_iff N (INT64_MIN + 1) ltac:(un; lia)) eq_refl). reflexivity.
Qed.
