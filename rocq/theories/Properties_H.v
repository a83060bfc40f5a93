(** * C24 (logarithm helpers), C29 (closed forms), C34 (integer overflow in Li) *)
From Coq Require Import ZArith Reals List Bool Lra Lia Psatz.
From Coquelicot Require Import Coquelicot.
From Flocq Require Import IEEE754.BinarySingleNaN.
From Interval Require Import Tactic.
From Verif Require Import Num NumR NumB Outcome Spec Eval_R Consts Model_Tables Model_Zeta Model_LiC Model_Li Proof_Int Proof_LiInt Cplx Clog_series.
Import ListNotations.
Local Open Scope R_scope.

(** ** C24 *)
Lemma Cre_eq (z : C) : snd z = 0 -> z = RtoC (fst z).
Proof. destruct z as [a b]. cbn [fst snd]. intros ->. reflexivity. Qed.
(** log1p(z) is the principal logarithm of 1+z, for every z with 1+z <> 0 *)
Theorem C24_log1p e (z : C) : Cplus (RtoC 1) z <> RtoC 0 ->
  exists w, clog1p (NumR e) (ofC e z) = ofC e w /\ is_Clog (Cplus (RtoC 1) z) w.
Proof.
  intros H. exists (Clog (Cplus (RtoC 1) z)). split; [|apply Clog_spec; exact H].
  unfold clog1p. cbv zeta. rewrite !lit_int. rewrite ofC_add_rc. set (u := Cplus (RtoC 1) z) in *.
  assert (Ez : z = Cminus u (RtoC 1)) by (unfold u; ring).
  cbn [fst snd ofC eqb leb NumR ocmp].
  destruct (Reqb (fst u) 1 && Reqb (snd u) 0)%bool eqn:E.
  - apply andb_prop in E. destruct E as [E1 E2].
    assert (F1 : fst u = 1) by (revert E1; unfold Reqb; destruct (Req_EM_T (fst u) 1); [auto|discriminate]).
    assert (F2 : snd u = 0) by (revert E2; unfold Reqb; destruct (Req_EM_T (snd u) 0); [auto|discriminate]).
    assert (U : u = RtoC 1) by (destruct u; cbn in *; subst; reflexivity).
    rewrite Ez, U. rewrite Clog_pos by lra. rewrite ln_1. f_equal. ring.
  - destruct (Rleb (fst u) 0) eqn:E0.
    + apply ofC_log. exact H.
    + assert (Z : z <> RtoC 0).
      { intros Z0. assert (U : u = RtoC 1) by (unfold u; rewrite Z0; ring). rewrite U in E. cbn [fst snd RtoC] in E.
        rewrite !Reqb_true in E by reflexivity. discriminate. }
      rewrite ofC_log by exact H. rewrite ofC_sub_cr. rewrite <- Ez. rewrite ofC_div by exact Z. rewrite ofC_mul. f_equal. field. exact Z.
Qed.
(** pos_log is the principal logarithm, with imaginary part +pi on the negative real axis *)
Theorem C24_pos_log e (z : C) : z <> RtoC 0 -> exists w, pos_log (NumR e) (ofC e z) = ofC e w /\ is_Clog z w.
Proof.
  intros H. exists (Clog z). split; [|apply Clog_spec; exact H].
  unfold pos_log. rewrite !lit_int. cbn [fst snd ofC eqb ltb NumR ocmp opp lift1].
  destruct (Reqb (snd z) 0) eqn:E.
  - assert (S0 : snd z = 0) by (revert E; unfold Reqb; destruct (Req_EM_T (snd z) 0); [auto|discriminate]).
    assert (Ez : z = RtoC (fst z)) by (apply Cre_eq; exact S0).
    assert (fst z <> 0) by (intros F; apply H; rewrite Ez, F; reflexivity).
    cbn [andb]. destruct (Rltb 0 (fst z)) eqn:P.
    + assert (0 < fst z) by (revert P; unfold Rltb; destruct (Rlt_dec 0 (fst z)); [auto|discriminate]).
      cbn [nlog NumR]. rewrite olog_some by lra. rewrite Ez at 2. rewrite Clog_pos by lra. reflexivity.
    + assert (fst z < 0) by (revert P; unfold Rltb; destruct (Rlt_dec 0 (fst z)); [discriminate|lra]).
      cbn [nlog NumR]. rewrite olog_some by lra. rewrite Ez at 2. rewrite Clog_neg by lra. unfold ofC. cbn [fst snd].
      f_equal. cbn. f_equal. rewrite atan_1. field.
  - cbn [andb]. apply ofC_log. exact H.
Qed.
(** Li's own clog: the principal logarithm, with the 17-digit pi on the negative real axis *)
Lemma Li_PI_err e : exists p, Li_PI (NumR e) = Some p /\ Rabs (p - PI) <= 2.5e-16.
Proof.
  eexists. split; [reflexivity|]. pose proof PI_dec. unfold litR. cbn [Z.leb Z.compare Z.opp].
  change (10 ^ 16)%Z with 10000000000000000%Z. interval with (i_prec 100).
Qed.
Theorem C24_Li_clog e (z : C) : z <> RtoC 0 ->
  exists w v, Li_clog (NumR e) (ofC e z) = ofC e v /\ is_Clog z w /\ fst v = fst w /\ Rabs (snd v - snd w) <= 2.5e-16 /\
    (snd z <> 0 \/ 0 < fst z -> v = w).
Proof.
  intros H. exists (Clog z). destruct (Li_PI_err e) as (p & Ep & Hp).
  unfold Li_clog. rewrite Ep. rewrite !lit_int. cbn [fst snd ofC eqb ltb NumR ocmp opp lift1 nlog nhypot lift2].
  assert (Z0 : forall x : R, Rabs (x - x) <= 2.5e-16) by (intros x; rewrite Rminus_eq_0, Rabs_R0; lra).
  destruct (Reqb (snd z) 0) eqn:E.
  - assert (S0 : snd z = 0) by (revert E; unfold Reqb; destruct (Req_EM_T (snd z) 0); [auto|discriminate]).
    assert (Ez : z = RtoC (fst z)) by (apply Cre_eq; exact S0).
    assert (fst z <> 0) by (intros F; apply H; rewrite Ez, F; reflexivity).
    cbn [andb]. destruct (Rltb 0 (fst z)) eqn:P.
    + assert (0 < fst z) by (revert P; unfold Rltb; destruct (Rlt_dec 0 (fst z)); [auto|discriminate]).
      exists (RtoC (ln (fst z))). rewrite olog_some by lra.
      assert (L : Clog z = RtoC (ln (fst z))) by (rewrite Ez at 1; apply Clog_pos; lra).
      split; [reflexivity|]. split; [apply Clog_spec; exact H|]. rewrite L. repeat split; auto.
    + assert (fst z < 0) by (revert P; unfold Rltb; destruct (Rlt_dec 0 (fst z)); [discriminate|lra]).
      exists (ln (- fst z), p). rewrite olog_some by lra.
      assert (L : Clog z = (ln (- fst z), PI)) by (rewrite Ez at 1; apply Clog_neg; lra).
      split; [reflexivity|]. split; [apply Clog_spec; exact H|]. rewrite L. cbn [fst snd]. repeat split; auto. intros [?|?]; lra.
  - assert (S0 : snd z <> 0) by (revert E; unfold Reqb; destruct (Req_EM_T (snd z) 0); [discriminate|auto]).
    cbn [andb]. exists (Clog z). change (Some (sqrt (fst z * fst z + snd z * snd z))) with (cabs (NumR e) (ofC e z)).
    rewrite ofC_abs. rewrite olog_some by (apply Cmod_gt_0; exact H).
    split; [reflexivity|]. split; [apply Clog_spec; exact H|]. repeat split; auto.
Qed.
(** in floating point the sign of a zero imaginary part is ignored: the negative axis gets
    +4*atan(1) (pos_log) or +PI (clog), the positive axis +0 *)
Theorem C24_negative_axis prec emax Hp He (L : libm prec emax) (s : bool) (x : binary_float prec emax) :
  Bltb x (B754_zero false) = true ->
  pos_log (NumB prec emax Hp He L) (x, B754_zero s) =
    (m_log _ _ L (Bopp x), Bmult mode_NE (blit prec emax Hp He 4 0) (m_atan _ _ L (blit prec emax Hp He 1 0))) /\
  Li_clog (NumB prec emax Hp He L) (x, B754_zero s) = (m_log _ _ L (Bopp x), blit prec emax Hp He 31415926535897932 (-16)).
Proof.
  intros H.
  assert (Z : blit prec emax Hp He 0 0 = B754_zero false).
  { unfold blit, bnorm. cbn. reflexivity. }
  assert (G : Bltb (B754_zero false : binary_float prec emax) x = false).
  { destruct x as [[]|[]| |[] ? ? ?]; cbn in *; try reflexivity; discriminate. }
  unfold pos_log, Li_clog. cbn [fst snd eqb ltb lit NumB]. rewrite Z, G.
  replace (Beqb (B754_zero s : binary_float prec emax) (B754_zero false)) with true by (destruct s; reflexivity). split; reflexivity.
Qed.
Theorem C24_positive_axis prec emax Hp He (L : libm prec emax) (s : bool) (x : binary_float prec emax) :
  Bltb (B754_zero false) x = true ->
  pos_log (NumB prec emax Hp He L) (x, B754_zero s) = (m_log _ _ L x, B754_zero false) /\
  Li_clog (NumB prec emax Hp He L) (x, B754_zero s) = (m_log _ _ L x, B754_zero false).
Proof.
  intros H.
  assert (Z : blit prec emax Hp He 0 0 = B754_zero false).
  { unfold blit, bnorm. cbn. reflexivity. }
  unfold pos_log, Li_clog. cbn [fst snd eqb ltb lit NumB]. rewrite Z, H.
  replace (Beqb (B754_zero s : binary_float prec emax) (B754_zero false)) with true by (destruct s; reflexivity). split; reflexivity.
Qed.
(** log1p loses nothing for tiny arguments: when 1+z rounds to 1, z itself is returned *)
Theorem C24_log1p_tiny prec emax Hp He (L : libm prec emax) (z : cpx (NumB prec emax Hp He L)) (o := blit prec emax Hp He 1 0) :
  Beqb (Bplus mode_NE o (fst z)) o = true -> Beqb (snd z) (B754_zero false) = true ->
  clog1p (NumB prec emax Hp He L) z = z.
Proof.
  intros H K. unfold clog1p. cbv zeta. unfold cadd_rc. cbn [fst snd eqb lit add NumB].
  change (blit prec emax Hp He 0 0) with (B754_zero false : binary_float prec emax).
  fold o. rewrite H, K. reflexivity.
Qed.
Example C24_nonvacuous : Cplus (RtoC 1) (-3, 2) <> RtoC 0 /\ (-3, 0) <> RtoC 0 /\ Bltb (blit 53 1024 Hp53 He53 (-3) 0) (B754_zero false) = true.
Proof.
  split; [|split; [|reflexivity]]; intros E; injection E; intros; lra.
Qed.

(** ** C29 *)
Section Closed.
Variables (e : R) (d fuel : nat).
Notation N := (NumR e).
Lemma Reqb_sym_false a b : a <> b -> Reqb a b = false. Proof. apply Reqb_false. Qed.

(** skip the special points *)
Lemma Li_generic n (z : C) : z <> RtoC 0 -> z <> RtoC 1 -> z <> RtoC (-1) -> (-1 <= n <= 1)%Z ->
  Li N d fuel n (ofC e z) =
  if (n =? -1)%Z then Val (cdiv N (ofC e z) (cmul N (csub_rc N (lit N 1 0) (ofC e z)) (csub_rc N (lit N 1 0) (ofC e z))))
  else if (n =? 0)%Z then Val (cdiv N (ofC e z) (csub_rc N (lit N 1 0) (ofC e z)))
  else Val (copp N (Li_clog N (csub_rc N (lit N 1 0) (ofC e z)))).
Proof.
  intros Z0 Z1 Zm Hn.
  assert (Q : forall r, z <> RtoC r -> (Reqb (fst z) r && Reqb (snd z) 0)%bool = false).
  { intros r Hr. destruct (Req_EM_T (fst z) r) as [A|A]; [|rewrite Reqb_false by exact A; reflexivity].
    destruct (Req_EM_T (snd z) 0) as [B|B]; [|rewrite (Reqb_false (snd z)) by exact B; apply andb_false_r].
    elim Hr. destruct z; cbn in *; subst; reflexivity. }
  assert (U : forall dd, dd = d -> Li N dd fuel n (ofC e z) = Li N d fuel n (ofC e z)) by (intros; subst; reflexivity).
  destruct d as [|dd]; cbn [Li]; cbv zeta; rewrite !lit_int; cbn [fst snd ofC isnan isinf NumR orb eqb ocmp].
  all: rewrite !Q by assumption.
  all: assert ((n <? -1)%Z = false) as -> by (apply Z.ltb_ge; lia).
  all: destruct (Z.eqb_spec n (-1)); [reflexivity|]; destruct (Z.eqb_spec n 0); [reflexivity|].
  all: assert (n = 1%Z) as -> by lia; reflexivity.
Qed.

Lemma neq_one_minus (z : C) : z <> RtoC 1 -> Cminus (RtoC 1) z <> RtoC 0.
Proof. apply one_minus_neq. Qed.
Lemma Li_at0 n : Li N d fuel n (ofC e (RtoC 0)) = Val (ofC e (RtoC 0)).
Proof.
  destruct d; cbn [Li]; cbv zeta; rewrite !lit_int; cbn [fst snd ofC RtoC isnan isinf NumR orb eqb ocmp]; rewrite !Reqb_true by reflexivity; reflexivity.
Qed.
Lemma Li_atm1 n : Li N d fuel n (ofC e (RtoC (-1))) = bind (neg_eta N n) (fun v => Val (v, Some 0)).
Proof.
  destruct d; cbn [Li]; cbv zeta; rewrite !lit_int; cbn [fst snd ofC RtoC isnan isinf NumR orb eqb ocmp].
  all: rewrite (Reqb_false (-1) 0), (Reqb_false (-1) 1) by lra; rewrite !Reqb_true by reflexivity; reflexivity.
Qed.

(** Li(0,z) = z/(1-z) *)
Theorem C29_order_0 (z : C) : z <> RtoC 1 -> Li N d fuel 0 (ofC e z) = Val (ofC e (Cdiv z (Cminus (RtoC 1) z))).
Proof.
  intros H1. pose proof (neq_one_minus z H1) as D.
  destruct (Ceq_dec z (RtoC 0)) as [->|Z0].
  { rewrite Li_at0. f_equal. f_equal. unfold Cdiv. ring. }
  destruct (Ceq_dec z (RtoC (-1))) as [->|Zm].
  { rewrite Li_atm1. change (neg_eta N 0) with (Val (lit N (-5) (-1))). cbn [bind]. f_equal.
    change (lit N (-5) (-1)) with (Some (litR (-5) (-1))). rewrite litR_mhalf. unfold ofC, Cdiv, Cinv, Cminus, Cplus, Copp, Cmult, RtoC. cbn [fst snd pow].
    f_equal; f_equal; field. }
  rewrite Li_generic by (auto; lia). cbn [Z.eqb Pos.eqb]. f_equal. rewrite !lit_int, ofC_sub_rc. apply ofC_div. exact D.
Qed.
(** Li(-1,z) = z/(1-z)^2 *)
Theorem C29_order_m1 (z : C) : z <> RtoC 1 ->
  Li N d fuel (-1) (ofC e z) = Val (ofC e (Cdiv z (Cmult (Cminus (RtoC 1) z) (Cminus (RtoC 1) z)))).
Proof.
  intros H1. pose proof (neq_one_minus z H1) as D.
  destruct (Ceq_dec z (RtoC 0)) as [->|Z0].
  { rewrite Li_at0. f_equal. f_equal. unfold Cdiv. ring. }
  destruct (Ceq_dec z (RtoC (-1))) as [->|Zm].
  { rewrite Li_atm1. change (neg_eta N (-1)) with (Val (lit N (-25) (-2))). cbn [bind]. f_equal.
    change (lit N (-25) (-2)) with (Some (litR (-25) (-2))). unfold litR. cbn [Z.leb Z.compare Z.opp].
    change (10 ^ 2)%Z with 100%Z. unfold ofC, Cdiv, Cinv, Cminus, Cplus, Copp, Cmult, RtoC. cbn [fst snd pow].
    f_equal; f_equal; field. }
  rewrite Li_generic by (auto; lia). cbn [Z.eqb Pos.eqb]. f_equal. rewrite !lit_int, ofC_sub_rc, ofC_mul. apply ofC_div.
  apply Cmult_neq_0; exact D.
Qed.
(** Li(1,z) = -log(1-z): real part exact except at the tabulated z = -1, imaginary part exact
    off the cut z > 1, where the 17-digit pi of the source is used *)
Theorem C29_order_1 (z : C) : z <> RtoC 1 ->
  exists v w, Li N d fuel 1 (ofC e z) = Val (ofC e v) /\ is_Clog (Cminus (RtoC 1) z) w /\
    Rabs (fst v - - fst w) <= 1e-17 /\ Rabs (snd v - - snd w) <= 2.5e-16 /\
    (z <> RtoC (-1) -> ~ (1 < fst z /\ snd z = 0) -> v = Copp w).
Proof.
  intros H1. pose proof (neq_one_minus z H1) as D.
  assert (Z0' : forall x : R, Rabs (x - x) = 0) by (intros x; rewrite Rminus_eq_0; apply Rabs_R0).
  destruct (Ceq_dec z (RtoC 0)) as [->|Z0].
  { exists (RtoC 0), (Clog (Cminus (RtoC 1) (RtoC 0))). rewrite Li_at0. split; [reflexivity|]. split; [apply Clog_spec; exact D|].
    replace (Cminus (RtoC 1) (RtoC 0)) with (RtoC 1) by ring. rewrite Clog_pos, ln_1 by lra. cbn [fst snd RtoC].
    rewrite Ropp_0, Z0'. repeat split; try lra. intros _ _. ring. }
  destruct (Ceq_dec z (RtoC (-1))) as [->|Zm].
  { eexists (_, 0), (Clog (Cminus (RtoC 1) (RtoC (-1)))). rewrite Li_atm1.
    change (neg_eta N 1) with (Val (lit N (-69314718055994531) (-17))). cbn [bind]. split; [reflexivity|]. split; [apply Clog_spec; exact D|].
    replace (Cminus (RtoC 1) (RtoC (-1))) with (RtoC 2) by (unfold Cminus, Cplus, Copp, RtoC; cbn; f_equal; ring).
    rewrite Clog_pos by lra. cbn [fst snd RtoC]. rewrite Ropp_0, Z0'.
    split; [|split; [lra|intros Q; elim Q; reflexivity]].
    unfold litR. cbn [Z.leb Z.compare Z.opp]. change (10 ^ 17)%Z with 100000000000000000%Z. interval with (i_prec 100). }
  rewrite Li_generic by (auto; lia). cbn [Z.eqb Pos.eqb]. rewrite !lit_int, ofC_sub_rc.
  destruct (C24_Li_clog e (Cminus (RtoC 1) z) D) as (w & v & -> & W & E1 & E2 & E3).
  exists (Copp v), w. rewrite ofC_opp. split; [reflexivity|]. split; [exact W|].
  cbn [Copp fst snd]. rewrite E1, Z0'. split; [lra|]. split.
  - replace (- snd v - - snd w) with (- (snd v - snd w)) by ring. rewrite Rabs_Ropp. exact E2.
  - intros _ Q. rewrite E3; [reflexivity|]. destruct z as [a b]. cbn [Cminus Cplus Copp RtoC fst snd] in *.
    destruct (Req_EM_T b 0) as [B|B]; [right|left; lra].
    assert (a <> 1) by (intros A; apply H1; subst; reflexivity). 
    assert (~ 1 < a) by tauto. lra.
Qed.
End Closed.
(** the three closed forms are the sums of z^k / k^n inside the unit disk *)
Theorem C29_series_0 (z : C) : Cmod z < 1 -> Csums (fun k => Cpow z (S k)) (Cdiv z (Cminus (RtoC 1) z)).
Proof. apply geom_series. Qed.
Theorem C29_series_m1 (z : C) : Cmod z < 1 ->
  Csums (fun k => Cmult (RtoC (INR (S k))) (Cpow z (S k))) (Cdiv z (Cmult (Cminus (RtoC 1) z) (Cminus (RtoC 1) z))).
Proof. apply geom1_series. Qed.
Theorem C29_series_1 (z : C) w : Cmod z < 1 -> is_Clog (Cminus (RtoC 1) z) w ->
  Csums (fun k => Cdiv (Cpow z (S k)) (RtoC (INR (S k)))) (Copp w).
Proof. intros H W. rewrite (Clog_unique _ _ W). apply log_series. exact H. Qed.
Example C29_nonvacuous : (1/2, 1/3) <> RtoC 1 /\ Cmod (1/2, 1/3) < 1.
Proof. split; [intros E; injection E; intros; lra|]. rewrite Cmod_alt. cbn [fst snd]. interval. Qed.

(** ** C34.  [Li N d fuel n z] stands for a run in which every series loop makes at most
    [fuel] passes and the recursion is at most [d] deep; [Ub] is a signed overflow. *)
Local Open Scope Z_scope.
(** whatever the arithmetic: no overflow as long as the loops run at most [fuel] times and n keeps
    a distance 2*fuel from the ends; the upper end is 3037000500 ~ sqrt(2^63), not INT64_MAX *)
Theorem C34_no_overflow (N : num) d fuel n z : is_int64 n ->
  INT64_MIN + 4 + 2 * Z.of_nat fuel <= n -> n <= 3037000499 - 2 * Z.of_nat fuel ->
  Li N d fuel n z <> Ub.
Proof. intros I A B. apply Li_no_ub; [exact I|exact A|unfold JMAX; lia]. Qed.

(** doubles, negative orders: no overflow for any number of passes, from INT64_MIN + 4 on *)
Lemma unity_neg_loop_no_ub64 L n : INT64_MIN + 2 <= n <= 0 -> forall fuel k lnz2 lk s, 0 <= k -> is_even (n - k) = false ->
  INT64_MIN + 2 <= n - k -> Li_unity_neg_loop (B64 L) fuel n k lnz2 lk s <> Ub.
Proof.
  intros Hn. induction fuel as [|f IH]; intros k lnz2 lk s Hk Ho Hb; [discriminate|].
  cbn [Li_unity_neg_loop]. rewrite (i64_ok (n - k)) by (un; lia). cbn [bind].
  destruct (Z.le_gt_cases (n - k) (-261)) as [C|C].
  - destruct (zeta_inf_neg L (n - k)) as [sg ->]; [lia|exact Ho|un; lia|un; lia|]. cbn [bind].
    destruct (inv_fac_defined (B64 L) k) as [w ->]. cbn [bind]. cbv zeta.
    change (mul (B64 L)) with (Bmult mode_NE : f64 -> f64 -> f64).
    destruct (inf_times sg w) as [[t ->]| ->]; rewrite ?inf_cmul_rc, ?nan_cmul_rc; cbn [negb]; discriminate.
  - destruct (zeta_val (B64 L) (n - k)) as [v ->]; [un; lia|un; lia|]. cbn [bind].
    destruct (inv_fac_defined (B64 L) k) as [w ->]. cbn [bind]. cbv zeta.
    destruct (negb _); [discriminate|]. rewrite i64_ok by (un; lia). cbn [bind].
    destruct (ceqb _ _ _); [discriminate|]. apply IH; try lia.
    + rewrite even_Zeven in *. rewrite <- Ho. replace (n - (k + 2)) with (n - k - 2 * 1) by lia.
      rewrite Z.even_sub, Z.even_mul. cbn. destruct (Z.even (n - k)); reflexivity.
    + un; lia.
Qed.
Lemma unity_neg_no_ub64 L fuel n z : INT64_MIN + 4 <= n <= -1 -> Li_unity_neg (B64 L) fuel n z <> Ub.
Proof.
  intros Hn. unfold Li_unity_neg. cbv zeta.
  rewrite (i64_ok (1 - n)) by (un; lia). cbn [bind]. rewrite (i64_ok (n - 1)) by (un; lia). cbn [bind].
  destruct (stable_pow_val (B64 L) (copp (B64 L) (Li_clog (B64 L) z)) (n - 1)) as [v ->]; [un; lia|un; lia|]. cbn [bind].
  destruct (is_even n) eqn:E.
  - apply unity_neg_loop_no_ub64; try lia; try (un; lia). rewrite even_Zeven in *. rewrite Z.even_sub, E. reflexivity.
  - destruct (zeta_val (B64 L) n) as [w ->]; [un; lia|un; lia|]. cbn [bind].
    apply unity_neg_loop_no_ub64; try lia; try (un; lia). rewrite even_Zeven in *. rewrite Z.even_sub, E. reflexivity.
Qed.
Theorem C34_negative_orders L d fuel n z : INT64_MIN + 4 <= n <= -2 -> Li (B64 L) d fuel n z <> Ub.
Proof.
  intros Hn. revert z. induction d as [|d IH]; intros z; cbn [Li]; cbv zeta.
  all: destruct (_ || _)%bool; [discriminate|]; destruct (_ || _)%bool; [discriminate|].
  all: destruct (_ && _)%bool; [discriminate|].
  all: destruct (_ && _)%bool; [destruct (Z.leb_spec n 0); [discriminate|lia]|].
  all: destruct (_ && _)%bool; [destruct (neg_eta_val (B64 L) n) as [v ->]; [un; lia|un; lia|discriminate] |].
  all: assert (E : (n <? -1) = true) by (apply Z.ltb_lt; lia); rewrite E.
  all: destruct (ltb _ _ _); [apply series_no_ub|]; destruct (ltb _ _ _); [apply unity_neg_no_ub64; lia|].
  1: discriminate.
  rewrite (i64_ok (n - 1)) by (un; lia). cbn [bind].
  destruct (Li (B64 L) d fuel n (csqrt (B64 L) z)) as [a| |] eqn:A; [|elim (IH _ A)|discriminate]. cbn [bind].
  destruct (Li (B64 L) d fuel n (copp (B64 L) (csqrt (B64 L) z))) as [b| |] eqn:B; [|elim (IH _ B)|discriminate]. discriminate.
Qed.

(** the overflows.  [ordinary z]: finite and none of the special points *)
Definition ordinary (N : num) (z : cpx N) : Prop :=
  isnan N (fst z) = false /\ isnan N (snd z) = false /\ isinf N (fst z) = false /\ isinf N (snd z) = false /\
  (eqb N (snd z) (lit N 0 0) = true ->
     eqb N (fst z) (lit N 0 0) = false /\ eqb N (fst z) (lit N 1 0) = false /\ eqb N (fst z) (lit N (-1) 0) = false).
Lemma ordinary_skip (N : num) z : ordinary N z ->
  (isnan N (fst z) || isnan N (snd z) = false /\ isinf N (fst z) || isinf N (snd z) = false /\
   eqb N (fst z) (lit N 0 0) && eqb N (snd z) (lit N 0 0) = false /\
   eqb N (fst z) (lit N 1 0) && eqb N (snd z) (lit N 0 0) = false /\
   eqb N (fst z) (lit N (-1) 0) && eqb N (snd z) (lit N 0 0) = false)%bool.
Proof.
  intros (A & B & C & D & E). rewrite A, B, C, D. repeat split.
  all: destruct (eqb N (snd z) (lit N 0 0)); [|apply andb_false_r]; destruct (E eq_refl) as (E1 & E2 & E3).
  all: rewrite ?E1, ?E2, ?E3; reflexivity.
Qed.
(** orders from 3037000498 on overflow in the annulus 0.75 < |z| < 1.4 (except the three
    orders just below the end where no loop is entered and n+3 still fits), and never outside it *)
Theorem C34_large_orders (N : num) d fuel n z : ordinary N z -> 3037000498 <= n -> is_int64 n ->
  (Li N d (S fuel) n z = Ub <->
   leb N (cnorm N z) (mul N (lit N 75 (-2)) (lit N 75 (-2))) = false /\
   leb N (mul N (lit N 14 (-1)) (lit N 14 (-1))) (cnorm N z) = false /\
   ~ (INT64_MAX - 5 <= n <= INT64_MAX - 3)).
Proof.
  intros O Hn I. destruct (ordinary_skip N z O) as (O1 & O2 & O3 & O4 & O5).
  pose proof (unity_pos_ub_iff N fuel n z ltac:(unfold JMAX; lia) I) as U.
  assert (X : Li N d (S fuel) n z =
    if leb N (cnorm N z) (mul N (lit N 75 (-2)) (lit N 75 (-2))) then Li_series N (S fuel) n z
    else if leb N (mul N (lit N 14 (-1)) (lit N 14 (-1))) (cnorm N z)
    then bind (Li_series N (S fuel) n (cdiv_rc N (lit N 1 0) z)) (fun s => bind (Li_rest N n z) (fun r =>
      Val (cadd N (cmul_rc N (if is_even n then lit N (-1) 0 else lit N 1 0) s) r)))
    else Li_unity_pos N (S fuel) n z).
  { destruct d; cbn [Li]; cbv zeta; rewrite O1, O2, O3, O4, O5.
    all: destruct (Z.ltb_spec n (-1)); [lia|].
    all: repeat match goal with |- context [if ?m =? ?k then _ else _] => destruct (Z.eqb_spec m k); [lia|] end; reflexivity. }
  rewrite X.
  destruct (leb _ _ _); [split; [intros Q; elim (series_no_ub _ _ _ _ Q)|intros (Q & _); discriminate]|].
  destruct (leb _ _ _).
  - split; [|intros (_ & Q & _); discriminate].
    destruct (Li_series N (S fuel) n (cdiv_rc N (lit N 1 0) z)) as [a| |] eqn:A; [|elim (series_no_ub _ _ _ _ A)|discriminate]; cbn [bind].
    destruct (rest_val N n z I) as [r ->]; [lia|]. discriminate.
  - rewrite U. tauto.
Qed.
(** the four lowest orders overflow in the expansion about z = 1 (exact arithmetic: the whole
    annulus 0.6 <= |z| <= 1.6 reaches it), and INT64_MIN + 1 also at z = -1 *)
Theorem C34_lowest_orders (N : num) d fuel n z : ordinary N z -> INT64_MIN <= n <= INT64_MIN + 3 ->
  let nl := cnorm N (Li_clog N z) in
  ltb N (mul N (mul N (mul N (lit N 4 0) (Li_PI N)) (Li_PI N)) (cnorm N z)) nl = false ->
  ltb N nl (mul N (mul N (mul N (mul N (lit N 512 (-3)) (lit N 512 (-3))) (lit N 4 0)) (Li_PI N)) (Li_PI N)) = true ->
  Li N d (S fuel) n z = Ub.
Proof.
  intros O Hn nl A B. destruct (ordinary_skip N z O) as (O1 & O2 & O3 & O4 & O5). subst nl.
  destruct d; cbn [Li]; cbv zeta; rewrite O1, O2, O3, O4, O5, A, B.
  all: destruct (Z.ltb_spec n (-1)); [|un; lia].
  all: apply unity_neg_ub_low; exact Hn.
Qed.
Theorem C34_minus_one (L : libm 53 1024) d fuel s :
  Li (B64 L) d fuel (INT64_MIN + 1) (blit 53 1024 Hp53 He53 (-1) 0, B754_zero s) = Ub.
Proof.
  assert (E : neg_eta (B64 L) (INT64_MIN + 1) = Ub) by (apply neg_eta_ub_iff; [un; lia|reflexivity]).
  destruct d; cbn [Li]; cbv zeta; cbn [fst snd].
  all: change (isnan (B64 L) (blit 53 1024 Hp53 He53 (-1) 0) || isnan (B64 L) (B754_zero s : B64 L))%bool with false.
  all: change (isinf (B64 L) (blit 53 1024 Hp53 He53 (-1) 0) || isinf (B64 L) (B754_zero s : B64 L))%bool with false.
  all: change (eqb (B64 L) (blit 53 1024 Hp53 He53 (-1) 0) (lit (B64 L) 0 0)) with false.
  all: change (eqb (B64 L) (blit 53 1024 Hp53 He53 (-1) 0) (lit (B64 L) 1 0)) with false.
  all: change (eqb (B64 L) (blit 53 1024 Hp53 He53 (-1) 0) (lit (B64 L) (-1) 0)) with true.
  all: change (eqb (B64 L) (B754_zero s : B64 L) (lit (B64 L) 0 0)) with (Beqb (B754_zero s : f64) (B754_zero false)).
  all: replace (Beqb (B754_zero s : f64) (B754_zero false)) with true by (destruct s; reflexivity).
  all: cbn [andb]; rewrite E; reflexivity.
Qed.

(** concrete calls that overflow: Li(3037000498, -1.125) and Li(INT64_MIN, 2) in doubles *)
Example C34_overflow_large L d fuel : Li (B64 L) d (S fuel) 3037000498 (blit 53 1024 Hp53 He53 (-1125) (-3), B754_zero false) = Ub.
Proof.
  apply C34_large_orders; [|lia|un; lia|].
  - repeat split; vm_compute; reflexivity.
  - split; [vm_compute; reflexivity|split; [vm_compute; reflexivity|un; lia]].
Qed.

Local Open Scope R_scope.
Lemma ordinary_exact e (z : C) : z <> RtoC 0 -> z <> RtoC 1 -> z <> RtoC (-1) -> ordinary (NumR e) (ofC e z).
Proof.
  intros Z0 Z1 Zm. unfold ordinary. rewrite !lit_int. cbn [fst snd ofC isnan isinf NumR eqb ocmp]. repeat split.
  all: assert (S0 : snd z = 0) by (revert H; unfold Reqb; destruct (Req_EM_T (snd z) 0); [auto|discriminate]).
  all: apply Reqb_false; intros F; pose proof (Cre_eq z S0) as Ez; rewrite F in Ez; auto.
Qed.
Lemma Li_clog_norm e (z : C) : z <> RtoC 0 -> exists q, cnorm (NumR e) (Li_clog (NumR e) (ofC e z)) = Some q /\
  ln (Cmod z) * ln (Cmod z) <= q <= ln (Cmod z) * ln (Cmod z) + 9.8696044010894.
Proof.
  intros H. destruct (C24_Li_clog e z H) as (w & v & E & W & E1 & E2 & _). rewrite E, ofC_norm, Cmod_sq.
  eexists. split; [reflexivity|]. pose proof (Clog_unique _ _ W) as W'. destruct W as [_ W]. rewrite W' in *.
  cbn [Clog fst snd] in *. rewrite E1.
  assert (-3.1415926535897936 <= snd v <= 3.1415926535897936).
  { pose proof PI_dec. apply Rabs_le_between in E2. assert (PI <= 3.1415926535897933) by interval with (i_prec 80). lra. }
  nra.
Qed.
Lemma thr_exact e : exists t, mul (NumR e) (mul (NumR e) (mul (NumR e) (mul (NumR e) (lit (NumR e) 512 (-3)) (lit (NumR e) 512 (-3))) (lit (NumR e) 4 0)) (Li_PI (NumR e))) (Li_PI (NumR e)) = Some t
   /\ 10.3489 <= t <= 10.3491.
Proof.
  eexists. split; [reflexivity|]. unfold litR. cbn [Z.leb Z.compare Z.opp]. rewrite Z.pow_0_r, Z.mul_1_r.
  change (10 ^ 16)%Z with 10000000000000000%Z. change (10 ^ 3)%Z with 1000%Z. lra.
Qed.
Lemma thr4_exact e r : exists t, mul (NumR e) (mul (NumR e) (mul (NumR e) (lit (NumR e) 4 0) (Li_PI (NumR e))) (Li_PI (NumR e))) (Some r) = Some (t * r)
   /\ 39.478 <= t <= 39.479.
Proof.
  eexists. split; [reflexivity|]. unfold litR. cbn [Z.leb Z.compare Z.opp]. rewrite Z.pow_0_r, Z.mul_1_r.
  change (10 ^ 16)%Z with 10000000000000000%Z. lra.
Qed.
Theorem C34_lowest_orders_annulus e d fuel n (z : C) : z <> RtoC 1 -> z <> RtoC (-1) -> 0.6 <= Cmod z <= 1.6 ->
  (INT64_MIN <= n <= INT64_MIN + 3)%Z -> Li (NumR e) d (S fuel) n (ofC e z) = Ub.
Proof.
  intros Z1 Zm M Hn. assert (Z0 : z <> RtoC 0) by (intros ->; rewrite Cmod_0 in M; lra).
  destruct (Li_clog_norm e z Z0) as (q & Q & Hq). destruct (thr_exact e) as (t & T & Ht).
  destruct (thr4_exact e (Cmod z * Cmod z)) as (t4 & T4 & Ht4).
  assert (L : -0.6 <= ln (Cmod z) <= 0.6) by (split; interval).
  assert (0 <= ln (Cmod z) * ln (Cmod z) <= 0.36) by nra.
  apply C34_lowest_orders; [apply ordinary_exact; assumption|exact Hn| |].
  - rewrite ofC_norm, T4, Q. cbn [ltb NumR ocmp]. apply Rltb_false.
    assert (0.36 <= Cmod z * Cmod z) by nra. nra.
  - rewrite T, Q. cbn [ltb NumR ocmp]. apply Rltb_true. lra.
Qed.
Example C34_annulus_nonvacuous : (1/2, 1) <> RtoC 1 /\ (1/2, 1) <> RtoC (-1) /\ 0.6 <= Cmod (1/2, 1) <= 1.6.
Proof. split; [|split]; [intros E; injection E; intros; lra ..|]. rewrite Cmod_alt. cbn [fst snd]. split; interval. Qed.
