(** * C48: Li(n,z) for the orders n = -2 .. -15 against the rational function Li_n, and what goes wrong at n = -60 *)
From Coq Require Import ZArith Reals List Bool Lra Lia Psatz.
From Coquelicot Require Import Coquelicot.
From Flocq Require Import Core.Raux.
From Interval Require Import Tactic.
From Verif Require Import Num NumR Outcome Spec Eval_R Consts Model_Tables Model_Zeta Model_LiC Model_Li Proof_Int Proof_LiInt Cplx Proof_Horner Clog_series Chain Polylog Polylog_series Polyneg Zeta_num Bern Bern_num Properties_H Properties_I Rest Unity Properties_M Ccalc CLi CLi_disc CLi_inv Cpoly CLi_unity CLi_dev CLi_gen Li_gen Li_gen2 Properties_W NegExp Li_negacc.
Import ListNotations.
Local Open Scope out_scope.
Local Open Scope R_scope.

(** [Li_neg m] is the polylogarithm of order -m, the rational function (z d/dz)^m z/(1-z) (Polyneg.v; its
    characterisation is C31_spec_series: sum k^m z^k in the unit disc, and C31_spec_theta: z d/dz).
    The arithmetic is [NumQ e q] with [stop_test q t] as in C46 (Properties_W.v): exact arithmetic, loops stopped
    by a comparison with relative tolerance t; t = 2^-53 in double precision. *)

(** the size of the quantities the code adds up at z: in the disc sum k^m |z|^k, near 1 the pole m!/|log z|^(m+1), and
    elsewhere 2^(-m-1) times the sum of the sizes at the two square roots *)
Inductive magnitude (m : nat) : C -> R -> Prop :=
| mag_disc z s : Cmod z < 0.513 -> is_series (fun k => INR (S k) ^ m * Cmod z ^ S k) s -> magnitude m z s
| mag_pole z : 0 < Cmod (Clog z) < 3.2171 -> magnitude m z (INR (fact m) / Cmod (Clog z) ^ S m)
| mag_root z r a b : 3.2169 < Cmod (Clog z) -> Cmult r r = z -> magnitude m r a -> magnitude m (Copp r) b -> magnitude m z ((a + b) / 2 ^ S m).

(** ** the dispatch for n <= -2, any arithmetic *)
Lemma Li_low (N : num) d fuel n z : ordinary N z -> (INT64_MIN + 4 <= n <= -2)%Z -> Li N d fuel n z =
    if ltb N (mul N (mul N (mul N (lit N 4 0) (Li_PI N)) (Li_PI N)) (cnorm N z)) (cnorm N (Li_clog N z)) then Li_series N fuel n z
    else if ltb N (cnorm N (Li_clog N z)) (mul N (mul N (mul N (mul N (lit N 512 (-3)) (lit N 512 (-3))) (lit N 4 0)) (Li_PI N)) (Li_PI N)) then Li_unity_neg N fuel n z
    else match d with O => NoFuel | S d' =>
      bind (Li N d' fuel n (csqrt N z)) (fun a => bind (Li N d' fuel n (copp N (csqrt N z))) (fun b =>
        Val (cmul_rc N (nexp2 N (ofZ N (n - 1))) (cadd N a b)))) end.
Proof.
  intros O Hn. destruct (ordinary_skip N z O) as (O1 & O2 & O3 & O4 & O5). assert (E : (n <? -1)%Z = true) by (apply Z.ltb_lt; lia).
  destruct d; cbn [Li]; cbv zeta; rewrite O1, O2, O3, O4, O5, E; [reflexivity|].
  destruct (ltb _ _ _); [reflexivity|]. destruct (ltb _ _ _); [reflexivity|].
  rewrite (i64_ok (n - 1)) by (unfold is_int64, INT64_MIN, INT64_MAX in *; lia). reflexivity.
Qed.
Section L.
Variables (e : R) (q : option R -> option R -> bool) (t : R).
Hypothesis Ht : stop_test q t.
Notation N := (NumQ e q).
Lemma off_ordinary (z : C) : snd z <> 0 -> ordinary N (ofC e z).
Proof.
  intros H. destruct Ht as [Q0 QT]. split; [reflexivity|]. split; [reflexivity|]. split; [reflexivity|]. split; [reflexivity|]. intros S0. exfalso.
  change (lit N) with (lit (NumR e)) in *. rewrite lit_int in S0. change (q (Some (snd z)) (Some 0) = true) in S0. rewrite Q0 in S0. unfold Reqb in S0. destruct (Req_EM_T (snd z) 0); [contradiction|discriminate].
Qed.
(** which of the three computations is used off the real axis *)
Lemma dispatch_low n d fuel (z : C) : snd z <> 0 -> (INT64_MIN + 4 <= n <= -2)%Z -> exists t4 th,
  39.478 <= t4 <= 39.479 /\ 10.3489 <= th <= 10.3491 /\
  Li N d fuel n (ofC e z) =
    if Rlt_dec (t4 * (Cmod z * Cmod z)) (Cmod (Clog z) * Cmod (Clog z)) then Li_series N fuel n (ofC e z)
    else if Rlt_dec (Cmod (Clog z) * Cmod (Clog z)) th then Li_unity_neg N fuel n (ofC e z)
    else match d with O => NoFuel | S d' =>
      bind (Li N d' fuel n (ofC e (Csqrt z))) (fun a => bind (Li N d' fuel n (ofC e (Copp (Csqrt z)))) (fun b =>
        Val (cmul_rc N (Some (Rpower 2 (IZR (n - 1)))) (cadd N a b)))) end.
Proof.
  intros HI Hn. assert (Z0 : z <> RtoC 0) by (intros ->; apply HI; reflexivity).
  destruct (thr4_exact e (Cmod z * Cmod z)) as (t4 & T4 & H4). destruct (thr_exact e) as (th & TH & HH). exists t4, th. split; [exact H4|]. split; [exact HH|].
  rewrite (Li_low N d fuel n (ofC e z) (off_ordinary z HI) Hn).
  rewrite (clogQ e q (proj1 Ht)), (log_exact e z Z0 (or_introl HI)).
  replace (cnorm N (ofC e z)) with (Some (Cmod z * Cmod z) : car N) by (symmetry; exact (ofC_norm e z)).
  replace (cnorm N (ofC e (Clog z))) with (Some (Cmod (Clog z) * Cmod (Clog z)) : car N) by (symmetry; exact (ofC_norm e (Clog z))).
  match goal with |- (if ltb N ?a ?b then _ else _) = _ => replace a with (Some (t4 * (Cmod z * Cmod z)) : car N) by (symmetry; exact T4) end.
  match goal with |- context [ltb N (Some (Cmod (Clog z) * Cmod (Clog z))) ?b] => replace b with (Some th : car N) by (symmetry; exact TH) end.
  cbn [ltb NumQ NumR ocmp]. unfold Rltb. destruct (Rlt_dec (t4 * (Cmod z * Cmod z)) (Cmod (Clog z) * Cmod (Clog z))); [reflexivity|]. destruct (Rlt_dec (Cmod (Clog z) * Cmod (Clog z)) th); [reflexivity|].
  destruct d; [reflexivity|]. replace (csqrt N (ofC e z)) with (ofC e (Csqrt z) : cpx N) by (symmetry; exact (ofC_sqrt e z)).
  replace (copp N (ofC e (Csqrt z))) with (ofC e (Copp (Csqrt z)) : cpx N) by (symmetry; exact (ofC_opp e (Csqrt z))). reflexivity.
Qed.
Lemma root_off (z : C) : snd z <> 0 -> snd (Csqrt z) <> 0.
Proof.
  intros HI E. apply HI. assert (Z0 : z <> RtoC 0) by (intros ->; apply HI; reflexivity). rewrite <- (Csqrt_sq z Z0). unfold Cmult. cbn [snd]. rewrite E. ring.
Qed.
Lemma log_ne0 (z : C) : snd z <> 0 -> Clog z <> RtoC 0.
Proof.
  intros HI E. assert (Z0 : z <> RtoC 0) by (intros ->; apply HI; reflexivity). destruct (Clog_spec z Z0) as [X _]. rewrite E in X. apply HI. rewrite <- X. unfold Cexp, RtoC. cbn [fst snd]. rewrite sin_0. ring.
Qed.
Lemma series_small (z : C) t4 : z <> RtoC 0 -> 39.478 <= t4 -> t4 * (Cmod z * Cmod z) < Cmod (Clog z) * Cmod (Clog z) -> Cmod z < 0.513.
Proof.
  intros Z0 H4 H. pose proof (proj1 (Cmod_gt_0 z) Z0) as ZP. apply Rnot_le_lt. intros G. destruct (Clog_spec z Z0) as [_ A].
  assert (E : Cmod (Clog z) * Cmod (Clog z) = ln (Cmod z) * ln (Cmod z) + Carg z * Carg z) by (rewrite Cmod_sq; unfold Clog; cbn [fst snd]; ring).
  assert (AP : Carg z * Carg z <= 9.8697). { unfold Clog in A. cbn [snd] in A. pose proof PI_RGT_0. assert (PI <= 3.14159266) by interval. assert (-3.14159266 <= Carg z <= 3.14159266) by lra. nra. }
  destruct (Rle_dec (Cmod z) 1) as [B|B].
  - assert (-0.6676 <= ln (513 / 1000)) by interval. assert (ln (513 / 1000) <= ln (Cmod z)) by (destruct G as [G|G]; [left; apply ln_increasing; lra|replace (513 / 1000) with 0.513 by lra; rewrite G; lra]).
    assert (ln (Cmod z) <= 0) by (rewrite <- ln_1; destruct B as [B|B]; [left; apply ln_increasing; lra|rewrite B; lra]). assert (ln (Cmod z) * ln (Cmod z) <= 0.4457) by nra.
    assert (0.263168 <= Cmod z * Cmod z) by nra. nra.
  - pose proof (Polylog.ln_le_sub1 (Cmod z) ZP). assert (0 < ln (Cmod z)) by (rewrite <- ln_1; apply ln_increasing; lra). nra.
Qed.
Lemma GG_series m x : (2 <= m <= 15)%nat -> 0 < x < 0.513 -> is_series (fun k => INR (S k) ^ m * x ^ S k) (GG m x).
Proof.
  intros Hm Hx. assert (SM : Csums (negterm m (RtoC x)) (Li_neg m (RtoC x))) by (apply Li_neg_series; rewrite Cmod_R, Rabs_pos_eq; lra).
  change (is_lim_seq (sum_n (fun k => INR (S k) ^ m * x ^ S k)) (GG m x)). apply is_lim_seq_ext with (u := fun K => asum m x (S K)); [|apply (is_lim_seq_incr_1 (asum m x))].
  - induction n as [|n IH]; [rewrite sum_O; cbn [asum]; unfold an; ring|]. rewrite sum_Sn, <- IH. cbn [asum]. reflexivity.
  - apply is_lim_seq_spec. intros ep. destruct (Csums_eps _ _ SM ep (cond_pos ep)) as (K0 & HK). exists K0. intros k Hk. specialize (HK k Hk). rewrite Csum_real in HK.
    eapply Rle_lt_trans; [|exact HK]. eapply Rle_trans; [|apply Cmod_fst]. cbn [fst Cminus Cplus Copp RtoC]. unfold GG. right. f_equal. 
Qed.
(** ** Li(-m,z) off the real axis: whatever the code returns is within (8t + 7e-16) times the magnitude of Li_{-m}(z) *)
Theorem C48_accuracy_off_axis : 0 <= t <= / 2 ^ 52 -> forall (m : nat) fuel d (z : C) w, (2 <= m <= 15)%nat -> snd z <> 0 ->
  Li N d fuel (- Z.of_nat m) (ofC e z) = Val w ->
  exists y s, w = ofC e y /\ magnitude m z s /\ Cmod (Cminus y (Li_neg m z)) <= (8 * t + 7e-16) * s.
Proof.
  intros T0 m fuel. induction d as [|d IH]; intros z w Hm HI H.
  all: assert (Z0 : z <> RtoC 0) by (intros ->; apply HI; reflexivity); pose proof (log_ne0 z HI) as V0; destruct (Clog_spec z Z0) as [EV _].
  all: match type of H with Li N ?dd _ _ _ = _ => destruct (dispatch_low (- Z.of_nat m) dd fuel z HI ltac:(unfold INT64_MIN; lia)) as (t4 & th & H4 & HH & E) end; rewrite E in H; clear E.
  all: destruct (Rlt_dec (t4 * (Cmod z * Cmod z)) (Cmod (Clog z) * Cmod (Clog z))) as [B1|B1].
  1,3: pose proof (series_small z t4 Z0 (proj1 H4) B1) as ZS; pose proof (proj1 (Cmod_gt_0 z) Z0) as ZP;
    destruct (neg_series_acc m (Cmod z) Hm (conj ZP ZS) z eq_refl e q t fuel w Ht T0 H) as (y & Y & BY);
    exists y, (GG m (Cmod z)); split; [exact Y|]; split; [apply mag_disc; [exact ZS|apply GG_series; [exact Hm|lra]]|exact BY].
  all: destruct (Rlt_dec (Cmod (Clog z) * Cmod (Clog z)) th) as [B2|B2].
  1,3: pose proof (proj1 (Cmod_gt_0 _) V0) as VP; assert (V3 : Cmod (Clog z) < 3.2171) by nra;
    destruct (zeta_code e) as (zc & ZV & ZA); destruct (code_fac e) as (f & F & FA & FB);
    assert (F0 : f 0%nat = 1) by (pose proof (F 0%nat) as E; change (Z.of_nat 0) with 0%Z in E; destruct (inv_fac_table (NumR e) 0 ltac:(cbn; lia)) as (dd & A & B); rewrite B in E; injection E as <-; vm_compute in A; injection A as <-; unfold litR; cbn; lra);
    assert (RW : rw (Clog z) <= 0.5121) by (unfold rw; apply Rle_div_l; [pose proof PI_RGT_0; lra|]; assert (3.1415 <= PI) by interval; lra);
    destruct (unity_neg_acc zc f m (Clog z) ltac:(lia) V0 ZA FA FB Hm RW e q t fuel z w (proj1 Ht) Ht T0 F0) as (y & Y & BY); try assumption;
    [intros k K; apply ZV; unfold INT64_MAX; lia|assert (3.1415 <= PI) by interval; lra|apply log_exact; [exact Z0|left; exact HI]|];
    rewrite EV in BY; exists y, (PP m (Clog z)); split; [exact Y|]; split; [apply mag_pole; split; assumption|exact BY].
  - discriminate H.
  - set (s := Csqrt z) in *. assert (SI : snd s <> 0) by (apply root_off; exact HI). assert (SM : snd (Copp s) <> 0) by (unfold Copp; cbn [snd]; lra).
    destruct (Li N d fuel (- Z.of_nat m) (ofC e s)) as [wa| |] eqn:EA; cbn [bind] in H; try discriminate H.
    destruct (Li N d fuel (- Z.of_nat m) (ofC e (Copp s))) as [wb| |] eqn:EB; cbn [bind] in H; try discriminate H. injection H as <-.
    destruct (IH s wa Hm SI EA) as (a & sa & -> & MA & BA). destruct (IH (Copp s) wb Hm SM EB) as (b & sb & -> & MB & BB).
    assert (SS : Cmult s s = z) by (apply Csqrt_sq; exact Z0).
    assert (S0 : s <> RtoC 0) by (intros E; apply SI; rewrite E; reflexivity). assert (S1 : s <> RtoC 1) by (intros E; apply SI; rewrite E; reflexivity). assert (S2 : s <> RtoC (-1)) by (intros E; apply SI; rewrite E; reflexivity).
    pose proof (C31_duplication m s S0 S1 S2) as DU. rewrite SS in DU. set (c := Rpower 2 _) in *.
    assert (C2 : c = / 2 ^ S m).
    { unfold c. rewrite Rpower_Z by lra. replace (- Z.of_nat m - 1)%Z with (- Z.of_nat (S m))%Z by lia. rewrite powerRZ_neg', <- pow_powerRZ. reflexivity. }
    assert (CP : 0 < c) by apply exp_pos.
    exists (Cmult (RtoC c) (Cplus a b)), ((sa + sb) / 2 ^ S m). split; [|split].
    + transitivity (cmul_rc N (Some c) (ofC e (Cplus a b))); [f_equal; exact (ofC_add e a b)|exact (ofC_mul_rc e c (Cplus a b))].
    + apply (mag_root m z s sa sb); [|exact SS|exact MA|exact MB]. apply Rnot_le_lt. intros G. pose proof (Cmod_ge_0 (Clog z)). nra.
    + rewrite <- DU. replace (Cminus (Cmult (RtoC c) (Cplus a b)) (Cmult (RtoC c) (Cplus (Li_neg m s) (Li_neg m (Copp s))))) with (Cmult (RtoC c) (Cplus (Cminus a (Li_neg m s)) (Cminus b (Li_neg m (Copp s))))) by ring.
      rewrite Cmod_mult, Cmod_R, Rabs_pos_eq by lra. replace ((8 * t + 7e-16) * ((sa + sb) / 2 ^ S m)) with (c * ((8 * t + 7e-16) * sa + (8 * t + 7e-16) * sb)) by (rewrite C2; unfold Rdiv; ring).
      apply Rmult_le_compat_l; [lra|]. eapply Rle_trans; [apply Cmod_triangle|]. lra.
Qed.
(** ** the calls return *)
Lemma unity_neg_loop_stopsQ n : is_int64 n -> (INT64_MIN + 2 <= n <= 0)%Z -> forall fuel k lnz2 lk s, (0 <= k)%Z -> is_even (n - k) = false ->
  (INT64_MIN + 2 <= n - k)%Z -> (n - k + 263 <= 2 * Z.of_nat fuel)%Z -> (1 <= fuel)%nat ->
  exists v, Li_unity_neg_loop N fuel n k lnz2 lk s = Val v.
Proof.
  intros I Hn. induction fuel as [|f IH]; intros k lnz2 lk s Hk Ho Hb Hf F1; [lia|].
  cbn [Li_unity_neg_loop]. rewrite (i64_ok (n - k)) by (unfold is_int64, INT64_MIN, INT64_MAX in *; lia). cbn [bind].
  destruct (Z.le_gt_cases (n - k) (-261)) as [C|C].
  - change (zeta N) with (zeta (NumR e)). rewrite (zeta_none e (n - k)) by (first [lia | exact Ho | unfold is_int64, INT64_MIN, INT64_MAX in *; lia]). cbn [bind].
    destruct (inv_fac_defined N k) as [w ->]. cbn [bind]. cbv zeta.
    match goal with |- context [is_finite N ?x] => replace (is_finite N x) with false by (destruct w as [w|], lk as [[x1|] [y1|]]; reflexivity) end. cbn [negb]. eauto.
  - destruct (zeta_val N (n - k)) as [v ->]; [unfold is_int64, INT64_MIN, INT64_MAX in *; lia|unfold is_int64, INT64_MIN, INT64_MAX in *; lia|]. cbn [bind].
    destruct (inv_fac_defined N k) as [w ->]. cbn [bind]. cbv zeta.
    destruct (negb _); [eauto|]. rewrite i64_ok by (unfold is_int64, INT64_MIN, INT64_MAX in *; lia). cbn [bind].
    destruct (ceqb _ _ _); [eauto|]. apply IH; try lia.
    + rewrite even_Zeven in *. rewrite <- Ho. replace (n - (k + 2))%Z with (n - k - 2 * 1)%Z by lia.
      rewrite Z.even_sub, Z.even_mul. cbn. destruct (Z.even (n - k)); reflexivity.
    + unfold is_int64, INT64_MIN, INT64_MAX in *; lia.
Qed.
Lemma unity_neg_stopsQ fuel n z : (INT64_MIN + 4 <= n <= -1)%Z -> (131 <= fuel)%nat -> exists v, Li_unity_neg N fuel n z = Val v.
Proof.
  intros Hn Hf. unfold Li_unity_neg. cbv zeta.
  rewrite (i64_ok (1 - n)) by (unfold is_int64, INT64_MIN, INT64_MAX in *; lia). cbn [bind]. rewrite (i64_ok (n - 1)) by (unfold is_int64, INT64_MIN, INT64_MAX in *; lia). cbn [bind].
  destruct (stable_pow_val N (copp N (Li_clog N z)) (n - 1)) as [v ->]; [unfold is_int64, INT64_MIN, INT64_MAX in *; lia|unfold is_int64, INT64_MIN, INT64_MAX in *; lia|]. cbn [bind].
  destruct (is_even n) eqn:E.
  - apply unity_neg_loop_stopsQ; try lia; try (unfold is_int64, INT64_MIN, INT64_MAX in *; lia). rewrite even_Zeven in *. rewrite Z.even_sub, E. reflexivity.
  - destruct (zeta_val N n) as [w ->]; [unfold is_int64, INT64_MIN, INT64_MAX in *; lia|unfold is_int64, INT64_MIN, INT64_MAX in *; lia|]. cbn [bind].
    apply unity_neg_loop_stopsQ; try lia; try (unfold is_int64, INT64_MIN, INT64_MAX in *; lia). rewrite even_Zeven in *. rewrite Z.even_sub, E. reflexivity.
Qed.
Lemma Li_depthQ n fuel : (INT64_MIN + 4 <= n <= -2)%Z -> (2 ^ 63 <= Z.of_nat fuel)%Z -> forall d (z : C), snd z <> 0 ->
  (ln (Cmod z) <= -1.5 \/ Rabs (ln (Cmod z)) <= 0.692 * 2 ^ d) -> exists v, Li N d fuel n (ofC e z) = Val v.
Proof.
  intros Hn Hf. induction d as [|d IH]; intros z HI H.
  all: assert (Z0 : z <> RtoC 0) by (intros ->; apply HI; reflexivity).
  all: match goal with |- exists v, Li N ?dd _ _ _ = _ => destruct (dispatch_low n dd fuel z HI Hn) as (t4 & th & H4 & HH & ->) end.
  all: match goal with |- context[if ?b then _ else _] => destruct b as [B1|B1] end; [apply series_stops; exact Hf|].
  all: match goal with |- context[if ?b then _ else _] => destruct b as [B2|B2] end; [apply unity_neg_stopsQ; lia|].
  all: pose proof (proj1 (Cmod_gt_0 z) Z0) as ZP.
  all: assert (E : Cmod (Clog z) * Cmod (Clog z) = ln (Cmod z) * ln (Cmod z) + Carg z * Carg z) by (rewrite Cmod_sq; unfold Clog; cbn [fst snd]; ring).
  all: assert (AP : 0 <= Carg z * Carg z <= 9.8697) by (split; [apply (Rle_0_sqr (Carg z))|]; destruct (Clog_spec z Z0) as [_ A]; unfold Clog in A; cbn [snd] in A; pose proof PI_RGT_0; assert (PI <= 3.14159266) by interval; assert (-3.14159266 <= Carg z <= 3.14159266) by lra; nra).
  all: assert (LN : -1.5 < ln (Cmod z)) by (apply Rnot_le_lt; intros G; apply B1; assert (B : Cmod z <= exp (-1.5)) by (rewrite <- (exp_ln (Cmod z)) by exact ZP; apply Raux.exp_le; exact G);
    assert (Cmod z <= 0.2232) by (eapply Rle_trans; [exact B|]; interval); assert (Cmod z * Cmod z <= 0.04982) by nra; nra).
  - exfalso. apply B2. destruct H as [H|H]; [lra|]. apply Rabs_le_between in H. cbn [pow] in H. nra.
  - assert (H' : Rabs (ln (Cmod z)) <= 0.692 * 2 ^ S d) by (destruct H as [H|H]; [lra|exact H]).
    assert (G : forall s, snd s <> 0 -> ln (Cmod s) = ln (Cmod z) / 2 -> exists v, Li N d fuel n (ofC e s) = Val v).
    { intros s S0 L. apply IH; [exact S0|right]. rewrite L. unfold Rdiv. rewrite Rabs_mult, (Rabs_pos_eq (/2)) by lra. cbn [pow] in H'. lra. }
    pose proof (root_off z HI) as SI.
    destruct (G (Csqrt z)) as [a ->]; [exact SI|apply Csqrt_ln; exact Z0|]. cbn [bind].
    destruct (G (Copp (Csqrt z))) as [b ->]; [unfold Copp; cbn [snd]; lra|rewrite Cmod_opp; apply Csqrt_ln; exact Z0|]. cbn [bind]. eauto.
Qed.
(** recursion depth 11 and 2^63 passes (the limit in the source) always suffice *)
Theorem C48_off_axis_returns fuel (m : nat) (z : C) : 0 <= t <= / 2 ^ 52 -> (2 <= m <= 15)%nat -> (2 ^ 63 <= Z.of_nat fuel)%Z -> snd z <> 0 -> Cmod z <= sqrt 2 * 2 ^ 1024 ->
  exists y s, Li N 11 fuel (- Z.of_nat m) (ofC e z) = Val (ofC e y) /\ magnitude m z s /\ Cmod (Cminus y (Li_neg m z)) <= (8 * t + 7e-16) * s.
Proof.
  intros T0 Hm Hf HI M. assert (Z0 : z <> RtoC 0) by (intros ->; apply HI; reflexivity). pose proof (proj1 (Cmod_gt_0 z) Z0) as P.
  destruct (Li_depthQ (- Z.of_nat m) fuel ltac:(unfold INT64_MIN; lia) Hf 11 z HI) as (w & W).
  { assert (U : ln (Cmod z) <= 711).
    { apply Rle_trans with (ln (sqrt 2 * 2 ^ 1024)).
      - destruct M as [M|M]; [left; apply ln_increasing; assumption|rewrite M; lra].
      - rewrite ln_mult by (try apply pow_lt; try apply sqrt_lt_R0; lra). rewrite ln_pow by lra.
        replace (INR 1024) with 1024 by (rewrite INR_IZR_INZ; reflexivity).
        assert (ln (sqrt 2) <= 0.35) by interval. assert (ln 2 <= 0.693148) by interval. lra. }
    destruct (Rle_dec (ln (Cmod z)) (-1.5)) as [A|A]; [left; exact A|right]. replace (2 ^ 11) with 2048 by ring. apply Rabs_le. lra. }
  destruct (C48_accuracy_off_axis T0 m fuel 11 z w Hm HI W) as (y & s & -> & MS & B). exists y, s. split; [exact W|]. split; assumption.
Qed.
End L.

(** ** ... but not for n = -60: at z = exp(25/8 i) the loop stops after its first pass, because the first term is below
    2^-53 of the pole term, although the later terms are much larger than the first *)
Definition th60 : R := 25 / 8.
Definition v60 : C := (0, th60).
Definition z60 : C := (cos th60, sin th60).
Lemma th60_range : 0 < th60 < PI. Proof. unfold th60. split; [lra|interval]. Qed.
Lemma Cexp_v60 : Cexp v60 = z60. Proof. unfold Cexp, v60, z60. cbn [fst snd]. rewrite exp_0, !Rmult_1_l. reflexivity. Qed.
Lemma z60_mod : Cmod z60 = 1. Proof. unfold z60. rewrite Cmod_alt. cbn [fst snd]. replace (cos th60 * cos th60 + sin th60 * sin th60) with 1 by (pose proof (sin2_cos2 th60) as H; unfold Rsqr in H; lra). apply sqrt_1. Qed.
Lemma z60_off : snd z60 <> 0. Proof. cbn [z60 snd]. pose proof th60_range. pose proof (sin_gt_0 th60 ltac:(lra) ltac:(lra)). lra. Qed.
Lemma log60 : Clog z60 = v60.
Proof.
  assert (Z0 : z60 <> RtoC 0) by (intros E; apply z60_off; rewrite E; reflexivity). symmetry. apply Clog_unique. split; [exact Cexp_v60|]. cbn [v60 snd]. pose proof th60_range. lra.
Qed.
Lemma v60_mod : Cmod v60 = th60. Proof. unfold v60. rewrite Cmod_alt. cbn [fst snd]. rewrite Rmult_0_l, Rplus_0_l. apply sqrt_square. pose proof th60_range. lra. Qed.
Lemma v60_ne : v60 <> RtoC 0. Proof. intros E. apply (f_equal snd) in E. cbn in E. pose proof th60_range. lra. Qed.
(** odd powers of i theta *)
Lemma ipow_odd p : Cpow v60 (2 * p + 1) = (0, (-1) ^ p * th60 ^ (2 * p + 1)).
Proof.
  induction p as [|p IH]; [cbn [Nat.mul Nat.add Cpow pow]; unfold v60, Cmult, RtoC; cbn [fst snd]; f_equal; ring|]. replace (2 * S p + 1)%nat with (S (S (2 * p + 1))) by lia. cbn [Cpow]. rewrite IH. unfold v60, Cmult. cbn [fst snd pow]. f_equal; ring.
Qed.
(** zeta(-61-2p) has the sign -(-1)^p *)
Lemma nco_sign p : nco 60 (2 * p + 1) = - (-1) ^ p * Rabs (nco 60 (2 * p + 1)).
Proof.
  assert (E : nco 60 (2 * p + 1) = - (-1) ^ p * (2 * ReLi (2 * (p + 31)) 1 / (2 * PI) ^ (2 * (p + 31)) * INR (fact (60 + (2 * p + 1))) * inv_fact (2 * p + 1))).
  { unfold nco. replace (60 + (2 * p + 1))%nat with (S (2 * p + 60)) by lia. cbn [bco]. replace (S (S (2 * p + 60))) with (2 * (p + 31))%nat by lia. rewrite beta_asl, asl_even by lia.
    replace ((-1) ^ (p + 31)) with (- (-1) ^ p) by (rewrite pow_add; replace ((-1) ^ 31) with (-1) by ring; ring). unfold Rdiv. ring. }
  assert (P : 0 <= 2 * ReLi (2 * (p + 31)) 1 / (2 * PI) ^ (2 * (p + 31)) * INR (fact (60 + (2 * p + 1))) * inv_fact (2 * p + 1)).
  { apply Rmult_le_pos; [apply Rmult_le_pos; [apply Rdiv_le_0_compat; [pose proof (Cot.zeta_le2 (2 * (p + 31)) ltac:(lia)); lra|apply tpk]|apply pos_INR]|left; apply inv_fact_pos]. }
  set (X := 2 * ReLi _ 1 / _ * _ * _) in *. rewrite E. rewrite Rabs_mult, Rabs_Ropp, pow_1_abs, (Rabs_pos_eq X) by exact P. ring.
Qed.
Lemma term60 k : ps (nco 60) v60 k = (0, - TT 60 v60 k).
Proof.
  destruct (Nat.even k) eqn:E.
  - rewrite (TT_even 60 v60 ltac:(lia) k) by (rewrite Nat.even_add, E; reflexivity). replace ((0, - 0) : C) with (RtoC 0) by (unfold RtoC; f_equal; ring). apply Cmod_eq_0. apply (TT_even 60 v60 ltac:(lia) k). rewrite Nat.even_add, E; reflexivity.
  - assert (O : Nat.odd k = true) by (unfold Nat.odd; rewrite E; reflexivity). apply Nat.odd_spec in O. destruct O as [p ->].
    rewrite TT_nco, v60_mod. unfold ps. rewrite ipow_odd, nco_sign at 1. unfold Cmult, RtoC. cbn [fst snd].
    assert (Q : (-1) ^ p * (-1) ^ p = 1) by (rewrite <- Rpow_mult_distr; replace (-1 * -1) with 1 by ring; apply pow1).
    set (A := Rabs _). set (B := th60 ^ _). f_equal; [ring|]. replace (- (-1) ^ p * A * ((-1) ^ p * B) + 0 * 0) with (- (((-1) ^ p * (-1) ^ p) * (A * B))) by ring. rewrite Q. ring.
Qed.
Lemma Cdiv_im F B : 0 < B -> Cmult (RtoC F) (Cinv (0, - B)) = (0, F / B).
Proof. intros P. rewrite Cinv_im by lra. unfold Cmult, RtoC. cbn [fst snd]. f_equal; [ring|]. field. lra. Qed.
Lemma ipow_odd_neg p : Cpow (Copp v60) (2 * p + 1) = (0, - ((-1) ^ p * th60 ^ (2 * p + 1))).
Proof.
  induction p as [|p IH]; [cbn [Nat.mul Nat.add Cpow pow]; unfold v60, Copp, Cmult, RtoC; cbn [fst snd]; f_equal; ring|]. replace (2 * S p + 1)%nat with (S (S (2 * p + 1))) by lia. cbn [Cpow]. rewrite IH. unfold v60, Copp, Cmult. cbn [fst snd pow]. f_equal; ring.
Qed.
Lemma pole_even p : pole (2 * (2 * p)) v60 = (0, PP (2 * (2 * p)) v60).
Proof.
  unfold pole, PP. rewrite v60_mod. replace (S (2 * (2 * p))) with (2 * (2 * p) + 1)%nat by lia. rewrite ipow_odd_neg, pow_1_even, Rmult_1_l. apply Cdiv_im. apply pow_lt, th60_range.
Qed.
Lemma pole60 : pole 60 v60 = (0, PP 60 v60).
Proof. exact (pole_even 15). Qed.
Lemma rw60 : 0.49735 <= rw v60 <= 0.4974.
Proof. unfold rw. rewrite v60_mod. unfold th60. split; interval. Qed.
(** the first term against the pole, and the 61st *)
Lemma bc_1 m : bc m 1 = INR m + 1.
Proof. unfold bc, inv_fact. replace (m + 1)%nat with (S m) by lia. rewrite fact_simpl, mult_INR, S_INR. pose proof (INR_fact_neq_0 m). set (F := INR (fact m)) in *. cbn [fact INR Nat.mul Nat.add]. field. assumption. Qed.
Lemma first60 : TT 60 v60 1 <= / 2 ^ 54 * PP 60 v60.
Proof.
  eapply Rle_trans; [apply (TT_le 60 v60 ltac:(lia) v60_ne)|]. rewrite Rmult_comm. apply Rmult_le_compat_r; [left; apply (PP_pos 60 v60 v60_ne)|].
  assert (B : bc 60 1 = 61) by (rewrite bc_1, INR_IZR_INZ; cbn [Z.of_nat Pos.of_succ_nat Pos.succ]; lra).
  rewrite B. change (S (60 + 1)) with 62%nat. pose proof rw60 as R. assert (rw v60 ^ 62 <= (4974 / 10000) ^ 62) by (apply pow_incr; lra). assert (2.165 * 61 * (4974 / 10000) ^ 62 <= / 2 ^ 54); [|lra].
  assert ((4974 / 10000) ^ 62 <= 2e-19) by interval. lra.
Qed.
Lemma frac_low f0 f1 f2 a b : 0 < f0 -> 0 < f1 -> 0 < b -> 18 * b * (f1 * f0) <= 1000 * a * f2 -> 0.018 <= f2 * / f1 * / f0 * (a * / b).
Proof.
  intros F0 F1 B0 C. replace (f2 * / f1 * / f0 * (a * / b)) with (1000 * a * f2 * / (1000 * b * (f1 * f0))) by (field; lra).
  assert (D : 0 < b * (f1 * f0)) by (apply Rmult_lt_0_compat; [exact B0|apply Rmult_lt_0_compat; assumption]).
  apply (Rmult_le_reg_r (1000 * (b * (f1 * f0)))); [lra|]. rewrite Rmult_assoc. replace (/ (1000 * b * (f1 * f0)) * (1000 * (b * (f1 * f0)))) with 1 by (field; lra). lra.
Qed.
Lemma bc_low (m k : nat) (A B : Z) (p : nat) : (0 < B)%Z -> (18 * B ^ Z.of_nat p * (zfac k * zfac m) <=? 1000 * A ^ Z.of_nat p * zfac (m + k))%Z = true -> 0.018 <= bc m k * (IZR A / IZR B) ^ p.
Proof.
  intros PB C. apply Z.leb_le in C. apply IZR_le in C. rewrite !mult_IZR, !zfac_ok, <- !pow_IZR in C.
  unfold bc, inv_fact, Rdiv. rewrite Rpow_mult_distr, pow_inv. apply frac_low; [apply INR_fact_lt_0|apply INR_fact_lt_0|apply pow_lt, IZR_lt; exact PB|exact C].
Qed.
Lemma big60 : 0.035 * PP 60 v60 <= TT 60 v60 61.
Proof.
  rewrite (TT_odd 60 v60 ltac:(lia) v60_ne 61) by reflexivity. change (S (60 + 61)) with 122%nat. rewrite Rmult_comm. pose proof (PP_pos 60 v60 v60_ne) as P0. apply Rmult_le_compat_l; [lra|].
  pose proof (zet4 60 ltac:(lia) 121 ltac:(lia)) as Z. pose proof rw60 as R. assert (RP : (49735 / 100000) ^ 122 <= rw v60 ^ 122) by (apply pow_incr; lra).
  assert (B : 0.018 <= bc 60 61 * (49735 / 100000) ^ 122) by (apply (bc_low 60 61 49735 100000 122); [lia|vm_compute; reflexivity]).
  pose proof (bc_pos 60 61) as B0. pose proof (pow_lt (49735 / 100000) 122 ltac:(lra)) as Q. set (X := (49735 / 100000) ^ 122) in *. set (Y := rw v60 ^ 122) in *. set (b := bc 60 61) in *. set (z := ReLi 122 1) in *.
  assert (b * X <= b * Y) by (apply Rmult_le_compat_l; lra). replace (2 * z * b * Y) with (2 * z * (b * Y)) by ring.
  assert (1.98 * 0.018 <= 2 * z * (b * Y)) by (apply Rmult_le_compat; lra). lra.
Qed.
Lemma csum60 K : Csum (ps (nco 60) v60) K = (0, - (match K with O => 0 | S j => sum_f_R0 (TT 60 v60) j end)).
Proof.
  induction K as [|K IH]; [cbn; unfold RtoC; f_equal; ring|]. cbn [Csum]. rewrite IH, term60. unfold Cplus. cbn [fst snd]. f_equal; [ring|]. destruct K as [|K]; [cbn [sum_f_R0]; ring|]. cbn [sum_f_R0]. ring.
Qed.
Lemma Csub_im (a : C) p : fst (Cminus a (0, p)) = 0 -> a = (0, p - - snd (Cminus a (0, p))).
Proof. destruct a as [x y]. unfold Cminus, Cplus, Copp. cbn [fst snd]. intros H. f_equal; lra. Qed.
(** Li_{-60}(z60) = i (P - Sigma) with Sigma >= T_1 + T_61 *)
Lemma value60 : exists s, Li_neg 60 z60 = (0, PP 60 v60 - s) /\ TT 60 v60 1 + TT 60 v60 61 <= s.
Proof.
  pose proof (neg_expansion 60 v60 v60_ne ltac:(rewrite v60_mod; pose proof th60_range; lra)) as SM. rewrite Cexp_v60, pole60 in SM. set (L := Cminus (Li_neg 60 z60) (0, PP 60 v60)) in *.
  set (S := fun K => match K with O => 0 | Datatypes.S j => sum_f_R0 (TT 60 v60) j end).
  assert (CS : forall K, Csum (ps (nco 60) v60) K = (0, - S K)) by exact csum60.
  assert (L1 : fst L = 0).
  { destruct (Req_dec (fst L) 0) as [E|E]; [exact E|exfalso]. destruct (Csums_eps _ _ SM (Rabs (fst L)) ltac:(apply Rabs_pos_lt; exact E)) as (K & HK). specialize (HK K (Nat.le_refl K)). rewrite CS in HK.
    pose proof (Cmod_fst (Cminus (0, - S K) L)) as F. replace (fst (Cminus (0, - S K) L)) with (- fst L) in F by (unfold Cminus, Cplus, Copp; cbn [fst]; ring). rewrite Rabs_Ropp in F. lra. }
  assert (MO : forall i, S 62%nat <= S (62 + i)%nat).
  { induction i as [|i IH]; [rewrite Nat.add_0_r; lra|]. eapply Rle_trans; [exact IH|]. replace (62 + Datatypes.S i)%nat with (Datatypes.S (Datatypes.S (61 + i))) by lia. replace (62 + i)%nat with (Datatypes.S (61 + i)) by lia. cbn [S sum_f_R0]. pose proof (TT_pos 60 v60 (Datatypes.S (61 + i))). lra. }
  assert (L2 : S 62%nat <= - snd L).
  { apply Rnot_lt_le. intros G. destruct (Csums_eps _ _ SM (S 62%nat - - snd L) ltac:(lra)) as (K0 & HK). specialize (HK (62 + K0)%nat ltac:(lia)). rewrite CS in HK. specialize (MO K0).
    pose proof (Cmod_snd (Cminus (0, - S (62 + K0)%nat) L)) as F. replace (snd (Cminus (0, - S (62 + K0)%nat) L)) with (- (S (62 + K0)%nat + snd L)) in F by (unfold Cminus, Cplus, Copp; cbn [snd]; ring). rewrite Rabs_Ropp in F. pose proof (Rle_abs (S (62 + K0)%nat + snd L)). lra. }
  exists (- snd L). split.
  - apply (Csub_im (Li_neg 60 z60) (PP 60 v60)). exact L1.
  - eapply Rle_trans; [|exact L2]. change (S 62%nat) with (sum_f_R0 (TT 60 v60) 60 + TT 60 v60 61). apply Rplus_le_compat_r.
    assert (GE : forall j, (1 <= j)%nat -> TT 60 v60 1 <= sum_f_R0 (TT 60 v60) j).
    { induction j as [|j IH]; intros J; [lia|]. cbn [sum_f_R0]. destruct j as [|j]; [cbn [sum_f_R0]; pose proof (TT_pos 60 v60 0); lra|]. specialize (IH ltac:(lia)). pose proof (TT_pos 60 v60 (Datatypes.S (Datatypes.S j))). lra. }
    apply GE. lia.
Qed.
(** the call returns the value after one pass; it is wrong by more than 3 % *)
Theorem C48_order_60_refuted e d fuel : (1 <= fuel)%nat ->
  exists y, Li (NumQ e q_tol) d fuel (-60) (ofC e z60) = Val (ofC e y) /\ 0.03 * Cmod (Li_neg 60 z60) <= Cmod (Cminus y (Li_neg 60 z60)).
Proof.
  intros Hf. destruct fuel as [|fl]; [lia|]. pose proof (q_tol_test e) as [Ht _]. pose proof z60_off as HI. assert (Z0 : z60 <> RtoC 0) by (intros E; apply HI; rewrite E; reflexivity).
  destruct (dispatch_low e q_tol _ Ht (-60) d (S fl) z60 HI ltac:(unfold INT64_MIN; lia)) as (t4 & th & H4 & HH & ->).
  rewrite log60, v60_mod, z60_mod. replace (th60 * th60) with (25 / 8 * (25 / 8)) by reflexivity. destruct (Rlt_dec (t4 * (1 * 1)) (25 / 8 * (25 / 8))) as [B|_]; [lra|]. destruct (Rlt_dec (25 / 8 * (25 / 8)) th) as [_|B]; [|lra].
  destruct (zeta_code e) as (zc & ZV & ZA); destruct (code_fac e) as (f & F & FA & FB).
  pose proof (PP_pos 60 v60 v60_ne) as P0. set (P := PP 60 v60) in *.
  set (y := Cplus (pole 60 v60) (nterm zc f 60 v60 1)).
  pose proof (nt_dev zc f 60 v60 ltac:(lia) ZA FA FB 1 ltac:(lia)) as ND. rewrite term60 in ND.
  assert (N1 : exists c, nterm zc f 60 v60 1 = (0, c)) by (eexists; unfold nterm; cbn [Cpow]; unfold v60, Cmult, RtoC; cbn [fst snd]; f_equal; ring).
  destruct N1 as (c & N1). rewrite N1 in ND. pose proof (Cmod_snd (Cminus (0, c) (0, - TT 60 v60 1))) as CS. cbn [snd Cminus Cplus Copp] in CS.
  assert (CB : Rabs (c + TT 60 v60 1) <= 1.3e-16 * TT 60 v60 1). { eapply Rle_trans; [|exact ND]. eapply Rle_trans; [|exact CS]. right. f_equal. ring. }
  pose proof (TT_pos 60 v60 1) as T0. pose proof first60 as F6. fold P in F6. apply Rabs_le_between in CB.
  assert (Y : y = (0, P + c)) by (unfold y; rewrite pole60, N1; unfold Cplus; cbn [fst snd]; f_equal; ring).
  exists y. split.
  - assert (E : Li_unity_neg (NumQ e q_tol) (S fl) (-60) (ofC e z60) = Val (ofC e y)); [|exact E].
    unfold Li_unity_neg. cbv zeta. rewrite (clogQ e q_tol (proj1 Ht)), (log_exact e z60 Z0 (or_introl HI)), log60.
    rewrite !i64_ok by (unfold is_int64, INT64_MIN, INT64_MAX; lia). cbn [bind].
    replace (copp (NumQ e q_tol) (ofC e v60)) with (ofC e (Copp v60) : cpx (NumQ e q_tol)) by (symmetry; exact (ofC_opp e v60)).
    change (-60 - 1)%Z with (- Z.of_nat 61)%Z. rewrite (stable_pow_ok e q_tol (Copp v60) 61 (proj1 Ht)); [|intros E; apply v60_ne; replace v60 with (Copp (Copp v60)) by ring; rewrite E; ring|unfold is_int64, INT64_MIN, INT64_MAX; lia]. cbn [bind].
    assert (G : ntgamma (NumQ e q_tol) (ofZ (NumQ e q_tol) (1 - -60)) = Some (INR (fact 60))).
    { change (1 - -60)%Z with (1 - - Z.of_nat 60)%Z. cbn [ntgamma ofZ NumQ NumR]. unfold otgamma. rewrite Zfloor_IZR. destruct (Req_EM_T _ _) as [_|D]; [|contradiction]. destruct (Z.leb_spec 1 (1 - - Z.of_nat 60)); [|lia].
      f_equal. }
    rewrite G. replace (cmul_rc (NumQ e q_tol) (Some (INR (fact 60))) (ofC e (Cinv (Cpow (Copp v60) 61)))) with (ofC e (pole 60 v60) : cpx (NumQ e q_tol)) by (symmetry; exact (ofC_mul_rc e _ _)).
    change (is_even (-60)) with true. cbv iota. cbn [Li_unity_neg_loop].
    rewrite !i64_ok by (unfold is_int64, INT64_MIN, INT64_MAX; lia). cbn [bind]. change (zeta (NumQ e q_tol)) with (zeta (NumR e)). rewrite ZV by (unfold INT64_MAX; lia). cbn [bind].
    change (inv_fac (NumQ e q_tol)) with (inv_fac (NumR e)). rewrite (F 1%nat : inv_fac (NumR e) 1 = _). cbn [bind]. cbv zeta.
    assert (T : cmul_rc (NumQ e q_tol) (mul (NumQ e q_tol) (Some (zc (-60 - 1)%Z)) (Some (f 1%nat))) (ofC e v60) = ofC e (nterm zc f 60 v60 1)).
    { transitivity (ofC e (Cmult (RtoC (zc (-60 - 1)%Z * f 1%nat)) v60) : cpx (NumQ e q_tol)); [exact (ofC_mul_rc e _ _)|]. apply (f_equal (ofC e)). unfold nterm. cbn [Cpow]. replace (Cmult v60 (RtoC 1)) with v60 by ring. reflexivity. }
    rewrite T. replace (is_finite (NumQ e q_tol) (ofC e (nterm zc f 60 v60 1))) with true by reflexivity. cbn [negb].
    replace (cadd (NumQ e q_tol) (ofC e (pole 60 v60)) (ofC e (nterm zc f 60 v60 1))) with (ofC e y : cpx (NumQ e q_tol)) by (symmetry; exact (ofC_add e _ _)).
    replace (ceqb (NumQ e q_tol) (ofC e y) (ofC e (pole 60 v60))) with true; [reflexivity|]. symmetry. unfold ceqb. cbn [fst snd ofC]. rewrite Y, pole60. cbn [fst snd]. change (eqb (NumQ e q_tol)) with q_tol. fold P. apply andb_true_intro. split.
    + unfold q_tol. destruct (Req_EM_T 0 0); [|contradiction]. unfold Reqb. destruct (Req_EM_T 0 0); [reflexivity|contradiction].
    + apply q_tol_accepts; [lra|]. rewrite (Rabs_pos_eq P) by lra. apply Rabs_le. replace (/ 2 ^ 53) with (2 * / 2 ^ 54) by (field). replace (P + c - P) with c by ring. lra.
  - destruct value60 as (s & E & HS). pose proof big60 as B6. fold P in B6, E. rewrite E, Y. unfold Cminus, Cplus, Copp. cbn [fst snd].
    assert (M : forall a, Cmod (0, a) = Rabs a) by (intros a; rewrite Cmod_alt; cbn [fst snd]; rewrite Rmult_0_l, Rplus_0_l; apply sqrt_Rsqr_abs).
    replace (0 + - 0) with 0 by ring. rewrite !M. replace (P + c + - (P - s)) with (c + s) by ring. assert (0 < / 2 ^ 54 * P) by (apply Rmult_lt_0_compat; [apply Rinv_0_lt_compat; lra|exact P0]).
    assert (QC : -1.1 * TT 60 v60 1 <= c) by lra.
    assert (QP : TT 60 v60 1 <= 0.0001 * P). { eapply Rle_trans; [exact F6|]. apply Rmult_le_compat_r; [lra|]. lra. }
    rewrite (Rabs_pos_eq (c + s)) by lra. assert (Rabs (P - s) <= P + s) by (apply Rabs_le; lra).
    destruct (Rle_dec s P) as [G|G]; [rewrite Rabs_pos_eq by lra; lra|]. rewrite Rabs_left by lra. lra.
Qed.
