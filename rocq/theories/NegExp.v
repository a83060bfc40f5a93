(** * Polylogarithms of negative order about z = 1
      Li_{-m}(e^w) = m! (-w)^(-m-1) + sum_k zeta(-m-k) w^k / k!      (0 < |w| < 2 pi) *)
From Coq Require Import ZArith Reals List Bool Lra Lia Psatz.
From Coquelicot Require Import Coquelicot.
From Verif Require Import Num NumR Spec Cplx Proof_Horner Clog_series Chain Polylog Polyneg Bern Rest Unity Ccalc CLi CLi_disc CLi_inv Cpoly CLi_unity CLi_gen.
Import ListNotations.
Local Open Scope R_scope.

(** ** sums *)
Lemma ex_Csums (f : nat -> C) B s : 0 <= s < 1 -> (forall k, Cmod (f k) <= B * s ^ k) -> exists L, Csums f L.
Proof.
  intros Hs H. assert (G : ex_series (fun k => B * s ^ k)).
  { apply (ex_series_scal_l (K := R_AbsRing) B (fun k => s ^ k)). apply ex_series_geom. rewrite Rabs_pos_eq; lra. }
  assert (A1 : ex_series (fun k => fst (f k))).
  { apply (ex_series_le (K := R_AbsRing) (V := R_CompleteNormedModule) _ (fun k => B * s ^ k)); [|exact G]. intros k. eapply Rle_trans; [apply Cmod_fst|apply H]. }
  assert (A2 : ex_series (fun k => snd (f k))).
  { apply (ex_series_le (K := R_AbsRing) (V := R_CompleteNormedModule) _ (fun k => B * s ^ k)); [|exact G]. intros k. eapply Rle_trans; [apply Cmod_snd|apply H]. }
  destruct A1 as [a A1], A2 as [b A2]. exists (a, b). unfold Csums.
  assert (E : forall K, Csum f (S K) = (sum_n (fun k => fst (f k)) K, sum_n (fun k => snd (f k)) K)).
  { induction K as [|K IH]; [cbn [Csum]; rewrite !sum_O; apply injective_projections; unfold Cplus, RtoC; cbn [fst snd]; ring|].
    change (Csum f (S (S K))) with (Cplus (Csum f (S K)) (f (S K))). rewrite IH, !sum_Sn. reflexivity. }
  apply is_lim_seq_incr_1. apply (is_lim_seq_ext (fun K => Cmod (sum_n (fun k => fst (f k)) K - a, sum_n (fun k => snd (f k)) K - b))).
  { intros K. rewrite E. reflexivity. }
  apply (is_lim_seq_le_le (fun _ => 0) _ (fun K => Rabs (sum_n (fun k => fst (f k)) K - a) + Rabs (sum_n (fun k => snd (f k)) K - b))).
  - intros K. split; [apply Cmod_ge_0|]. eapply Rle_trans; [apply Cmod_le_sum|]. cbn [fst snd]. lra.
  - apply is_lim_seq_const.
  - replace (Finite 0) with (Finite (0 + 0)) by (f_equal; ring). apply is_lim_seq_plus'.
    + apply (proj1 (is_lim_seq_abs_0 _)). replace (Finite 0) with (Finite (a - a)) by (f_equal; ring). apply is_lim_seq_minus'; [exact A1|apply is_lim_seq_const].
    + apply (proj1 (is_lim_seq_abs_0 _)). replace (Finite 0) with (Finite (b - b)) by (f_equal; ring). apply is_lim_seq_minus'; [exact A2|apply is_lim_seq_const].
Qed.
(** ** term by term differentiation of a power series *)
Definition dpow (w : C) (k : nat) : C := match k with O => RtoC 0 | S j => Cmult (RtoC (INR (S j))) (Cpow w j) end.
Lemma pow_taylor (w h : C) rho : 1 <= rho -> Cmod w <= rho -> Cmod (Cplus w h) <= rho -> forall k,
  Cmod (Cminus (Cminus (Cpow (Cplus w h) k) (Cpow w k)) (Cmult h (dpow w k))) <= INR k ^ 2 * rho ^ k * (Cmod h) ^ 2.
Proof.
  intros R1 W1 W2. induction k as [|k IH].
  - cbn [Cpow dpow INR pow]. replace (Cminus (Cminus (RtoC 1) (RtoC 1)) (Cmult h (RtoC 0))) with (RtoC 0) by ring. rewrite Cmod_0. lra.
  - set (D := Cminus (Cminus (Cpow (Cplus w h) k) (Cpow w k)) (Cmult h (dpow w k))) in *.
    assert (E : Cminus (Cminus (Cpow (Cplus w h) (S k)) (Cpow w (S k))) (Cmult h (dpow w (S k))) = Cplus (Cmult (Cplus w h) D) (Cmult (Cmult h h) (dpow w k))).
    { unfold D. destruct k as [|k]; [cbn [Cpow dpow INR]; ring|]. cbn [dpow Cpow]. rewrite (S_INR (S k)), RtoC_plus. ring. }
    rewrite E. eapply Rle_trans; [apply Cmod_triangle|]. rewrite !Cmod_mult.
    assert (H2 : 0 <= Cmod h * Cmod h) by (apply Rle_0_sqr). pose proof (pos_INR k) as K0. pose proof (pow_le rho k ltac:(lra)) as P0.
    assert (A : Cmod (dpow w k) <= INR k * (rho * rho ^ k)).
    { destruct k as [|k]; [cbn [dpow INR]; rewrite Cmod_0; lra|]. cbn [dpow]. rewrite Cmod_mult, Cmod_R, Rabs_pos_eq, Cpow_mod by apply pos_INR.
      apply Rmult_le_compat_l; [apply pos_INR|]. pose proof (pow_incr (Cmod w) rho k (conj (Cmod_ge_0 w) W1)) as Q. pose proof (pow_le rho k ltac:(lra)) as P1. cbn [pow].
      apply Rle_trans with (1 * (rho ^ k)); [lra|]. assert (1 * rho ^ k <= rho * rho ^ k) by (apply Rmult_le_compat_r; lra).
      assert (rho * rho ^ k <= rho * (rho * rho ^ k)) by (apply Rmult_le_compat_l; lra). lra. }
    assert (B : Cmod (Cplus w h) * Cmod D <= rho * (INR k ^ 2 * rho ^ k * Cmod h ^ 2)).
    { apply Rmult_le_compat; try apply Cmod_ge_0; [exact W2|exact IH]. }
    assert (C1 : Cmod h * Cmod h * Cmod (dpow w k) <= Cmod h * Cmod h * (INR k * (rho * rho ^ k))) by (apply Rmult_le_compat_l; assumption).
    rewrite S_INR. cbn [pow] in *. set (x := INR k) in *. set (g := rho * rho ^ k) in *. set (hh := Cmod h * Cmod h) in *.
    assert (G0 : 0 <= g) by (apply Rmult_le_pos; lra).
    replace (rho * (x * (x * 1) * rho ^ k * (Cmod h * (Cmod h * 1)))) with (x * x * (g * hh)) in B by (unfold g, hh; ring).
    replace ((x + 1) * ((x + 1) * 1) * g * (Cmod h * (Cmod h * 1))) with ((x * x + 2 * x + 1) * (g * hh)) by (unfold hh; ring).
    replace (hh * (x * g)) with (x * (g * hh)) in C1 by ring. assert (GH : 0 <= g * hh) by (apply Rmult_le_pos; assumption).
    assert (0 <= x * (g * hh)) by (apply Rmult_le_pos; assumption). lra.
Qed.
Definition ps (a : nat -> R) (w : C) (k : nat) : C := Cmult (RtoC (a k)) (Cpow w k).
Definition da (a : nat -> R) (k : nat) : R := INR (S k) * a (S k).
Lemma ps_quad (a : nat -> R) M (w h : C) rho : 1 <= rho -> Cmod w <= rho -> Cmod (Cplus w h) <= rho ->
  (forall K, sum_f_R0 (fun k => Rabs (a k) * (INR k ^ 2 * rho ^ k)) K <= M) ->
  forall K, Cmod (Cminus (Cminus (Csum (ps a (Cplus w h)) (S K)) (Csum (ps a w) (S K))) (Cmult h (Csum (ps (da a) w) K))) <= M * Cmod h ^ 2.
Proof.
  intros R1 W1 W2 HM K.
  assert (E : Cminus (Cminus (Csum (ps a (Cplus w h)) (S K)) (Csum (ps a w) (S K))) (Cmult h (Csum (ps (da a) w) K)) =
    Csum (fun k => Cmult (RtoC (a k)) (Cminus (Cminus (Cpow (Cplus w h) k) (Cpow w k)) (Cmult h (dpow w k)))) (S K)).
  { clear. induction K as [|K IH]; [cbn [Csum]; unfold ps; cbn [Cpow dpow]; ring|].
    change (Csum ?f (S (S K))) with (Cplus (Csum f (S K)) (f (S K))). change (Csum (ps (da a) w) (S K)) with (Cplus (Csum (ps (da a) w) K) (ps (da a) w K)).
    rewrite <- IH. generalize (Csum (ps a (Cplus w h)) (S K)) (Csum (ps a w) (S K)) (Csum (ps (da a) w) K). intros p1 p2 p3. unfold ps, da. cbn [dpow]. rewrite RtoC_mult. ring. }
  rewrite E. eapply Rle_trans; [apply Csum_mod|].
  apply Rle_trans with (sum_f_R0 (fun k => Rabs (a k) * (INR k ^ 2 * rho ^ k) * Cmod h ^ 2) K).
  - apply sum_Rle. intros k _. rewrite Cmod_mult, Cmod_R, Rmult_assoc. apply Rmult_le_compat_l; [apply Rabs_pos|]. apply pow_taylor; assumption.
  - rewrite <- scal_sum, Rmult_comm. apply Rmult_le_compat_r; [apply pow_le, Cmod_ge_0|apply HM].
Qed.
Lemma Csums_eps f L : Csums f L -> forall e, 0 < e -> exists K0, forall K, (K0 <= K)%nat -> Cmod (Cminus (Csum f K) L) < e.
Proof.
  intros H e He. apply is_lim_seq_spec in H. destruct (H (mkposreal e He)) as [K0 HK]. exists K0. intros K HKK. specialize (HK K HKK). cbn in HK. rewrite Rminus_0_r, Rabs_pos_eq in HK by apply Cmod_ge_0. exact HK.
Qed.
Lemma ps_quad_lim (a : nat -> R) M (w h S1 S0 D : C) rho : 1 <= rho -> Cmod w <= rho -> Cmod (Cplus w h) <= rho ->
  (forall K, sum_f_R0 (fun k => Rabs (a k) * (INR k ^ 2 * rho ^ k)) K <= M) ->
  Csums (ps a (Cplus w h)) S1 -> Csums (ps a w) S0 -> Csums (ps (da a) w) D ->
  Cmod (Cminus (Cminus S1 S0) (Cmult h D)) <= M * Cmod h ^ 2.
Proof.
  intros R1 W1 W2 HM A B C. apply Rnot_lt_le. intros LT. set (d := Cmod (Cminus (Cminus S1 S0) (Cmult h D)) - M * Cmod h ^ 2) in *. assert (d0 : 0 < d) by (unfold d; lra).
  pose proof (Cmod_ge_0 h) as H0. set (e := d / (3 + Cmod h)). assert (e0 : 0 < e) by (apply Rdiv_lt_0_compat; lra).
  destruct (Csums_eps _ _ A e e0) as (K1 & A1), (Csums_eps _ _ B e e0) as (K2 & B1), (Csums_eps _ _ C e e0) as (K3 & C1).
  set (K := (K1 + K2 + K3)%nat). specialize (A1 (S K) ltac:(lia)). specialize (B1 (S K) ltac:(lia)). specialize (C1 K ltac:(lia)).
  pose proof (ps_quad a M w h rho R1 W1 W2 HM K) as Q.
  set (x := Csum (ps a (Cplus w h)) (S K)) in *. set (y := Csum (ps a w) (S K)) in *. set (u := Csum (ps (da a) w) K) in *.
  assert (T : Cmod (Cminus (Cminus S1 S0) (Cmult h D)) <= Cmod (Cminus (Cminus x y) (Cmult h u)) + Cmod (Cminus x S1) + Cmod (Cminus y S0) + Cmod h * Cmod (Cminus u D)).
  { replace (Cminus (Cminus S1 S0) (Cmult h D)) with (Cplus (Cplus (Cplus (Cminus (Cminus x y) (Cmult h u)) (Copp (Cminus x S1))) (Cminus y S0)) (Cmult h (Cminus u D))) by ring.
    eapply Rle_trans; [apply Cmod_triangle|]. rewrite Cmod_mult. apply Rplus_le_compat_r. eapply Rle_trans; [apply Cmod_triangle|]. apply Rplus_le_compat_r.
    eapply Rle_trans; [apply Cmod_triangle|]. rewrite Cmod_opp. lra. }
  assert (HC : Cmod h * Cmod (Cminus u D) <= Cmod h * e) by (apply Rmult_le_compat_l; lra).
  assert (ED : e * (3 + Cmod h) = d) by (unfold e; field; lra). unfold d in ED. lra.
Qed.
(** a quadratic bound on the remainder gives the derivative *)
Lemma derive_quad (f : R -> R) l M d : 0 < d -> (forall h, Rabs h < d -> Rabs (f h - f 0 - h * l) <= M * h ^ 2) -> is_derive f 0 l.
Proof.
  intros D H. apply is_derive_Reals. intros e He. pose proof (Rabs_pos M) as M0.
  assert (dd : 0 < Rmin d (e / (Rabs M + 1))) by (apply Rmin_pos; [exact D|apply Rdiv_lt_0_compat; lra]). exists (mkposreal _ dd). intros h H0 Hh. cbn in Hh.
  pose proof (Rlt_le_trans _ _ _ Hh (Rmin_l _ _)) as H1. pose proof (Rlt_le_trans _ _ _ Hh (Rmin_r _ _)) as H2. rewrite Rplus_0_l.
  specialize (H h H1). replace ((f h - f 0) / h - l) with ((f h - f 0 - h * l) / h) by (field; exact H0). unfold Rdiv. rewrite Rabs_mult, Rabs_inv.
  assert (HP : 0 < Rabs h) by (apply Rabs_pos_lt, H0). apply Rmult_lt_reg_r with (Rabs h); [exact HP|]. rewrite Rmult_assoc, Rinv_l, Rmult_1_r by lra.
  eapply Rle_lt_trans; [exact H|]. replace (h ^ 2) with (Rabs h * Rabs h) by (rewrite <- Rabs_mult, Rabs_pos_eq by apply (Rle_0_sqr h); ring).
  rewrite <- Rmult_assoc. apply Rmult_lt_compat_r; [exact HP|]. apply Rle_lt_trans with (Rabs M * Rabs h); [apply Rmult_le_compat_r; [lra|apply Rle_abs]|].
  apply Rle_lt_trans with ((Rabs M + 1) * Rabs h); [apply Rmult_le_compat_r; lra|]. apply Rlt_div_r in H2; lra.
Qed.
Lemma Cder_quad (F : R -> C) (l : C) M d : 0 < d -> (forall h, Rabs h < d -> Cmod (Cminus (Cminus (F h) (F 0)) (Cmult (RtoC h) l)) <= M * h ^ 2) -> Cder F 0 l.
Proof.
  intros D H. split; apply (derive_quad _ _ M d D); intros h Hh; (eapply Rle_trans; [|exact (H h Hh)]).
  - eapply Rle_trans; [|apply Cmod_fst]. right. f_equal. destruct l. unfold Cminus, Cplus, Copp, Cmult, RtoC. cbn [fst snd]. ring.
  - eapply Rle_trans; [|apply Cmod_snd]. right. f_equal. destruct l. unfold Cminus, Cplus, Copp, Cmult, RtoC. cbn [fst snd]. ring.
Qed.
(** ** the coefficients zeta(-m-k)/k! *)
Definition nco (m k : nat) : R := bco (m + k) * INR (fact (m + k)) * inv_fact k.
Lemma nco_der m k : da (nco m) k = nco (S m) k.
Proof.
  unfold da, nco. replace (m + S k)%nat with (S m + k)%nat by lia. unfold inv_fact. rewrite (fact_simpl k), mult_INR. pose proof (INR_fact_lt_0 k). pose proof (lt_0_INR (S k) ltac:(lia)). field. lra.
Qed.
Lemma bco_bd j : Rabs (bco j) <= 4 / (2 * PI) ^ j.
Proof.
  pose proof PI_RGT_0 as PP. pose proof PI2_3_2 as P3. destruct j as [|j]; [cbn [bco pow]; rewrite Rabs_Ropp, Rabs_pos_eq; lra|]. cbn [bco]. rewrite Rabs_Ropp. eapply Rle_trans; [apply beta_bd|].
  unfold Rdiv. apply Rmult_le_compat_l; [lra|]. pose proof (tpk (S j)). apply Rinv_le_contravar; [assumption|]. change ((2 * PI) ^ S (S j)) with (2 * PI * (2 * PI) ^ S j). rewrite <- (Rmult_1_l ((2 * PI) ^ S j)) at 1. apply Rmult_le_compat_r; lra.
Qed.
Lemma fact_quot m k : INR (fact (m + k)) * inv_fact k <= INR (S (m + k)) ^ m.
Proof.
  induction m as [|m IH]; [cbn [Nat.add pow]; unfold inv_fact; right; field; apply INR_fact_neq_0|].
  cbn [Nat.add]. rewrite fact_simpl, mult_INR, Rmult_assoc. pose proof (pos_INR (S (m + k))) as P. pose proof (inv_fact_pos k). pose proof (INR_fact_lt_0 (m + k)).
  cbn [pow]. apply Rmult_le_compat; [exact P|apply Rmult_le_pos; lra|apply le_INR; lia|]. eapply Rle_trans; [exact IH|]. apply pow_incr. split; [exact P|apply le_INR; lia].
Qed.
Lemma nco_geo m rho : 1 <= rho < 2 * PI -> exists B s, 0 <= B /\ 0 < s < 1 /\ forall k, Rabs (nco m k) * (INR (S k) ^ 2 * rho ^ k) <= B * s ^ k.
Proof.
  intros HR. pose proof PI_RGT_0 as PP. set (r := rho / (2 * PI)). assert (Hr : 0 < r < 1) by (unfold r; split; [apply Rdiv_lt_0_compat; lra|apply Rlt_div_l; lra]).
  set (s := sqrt r). assert (Hs : 0 < s < 1) by (split; [apply sqrt_lt_R0; lra|unfold s; rewrite <- sqrt_1; apply sqrt_lt_1; lra]). assert (SS : s * s = r) by (apply sqrt_sqrt; lra).
  destruct (filterlim_bounded (fun n => INR (S n) ^ (m + 2) * s ^ S n)) as (M & HM); [exists 0; apply lim_powpow; lra|].
  exists (4 * (M / s)), s. assert (M0 : 0 <= M) by (eapply Rle_trans; [|apply (HM 0%nat)]; apply (norm_ge_0 (V := R_NormedModule))).
  assert (MS : 0 <= M / s) by (apply Rdiv_le_0_compat; lra). split; [lra|]. split; [exact Hs|]. intros k. set (j := (m + k)%nat).
  assert (A : Rabs (nco m k) <= 4 / (2 * PI) ^ j * INR (S j) ^ m).
  { unfold nco. rewrite Rmult_assoc, Rabs_mult. pose proof (inv_fact_pos k). pose proof (INR_fact_lt_0 (m + k)). rewrite (Rabs_pos_eq (INR _ * _)) by (apply Rmult_le_pos; lra).
    apply Rmult_le_compat; [apply Rabs_pos|apply Rmult_le_pos; lra|apply bco_bd|apply fact_quot]. }
  assert (R1 : rho ^ k <= rho ^ j) by (apply Rle_pow; [lra|unfold j; lia]).
  assert (K1 : INR (S k) ^ 2 <= INR (S j) ^ 2) by (apply pow_incr; split; [apply pos_INR|apply le_INR; unfold j; lia]).
  pose proof (tpk j) as T. pose proof (pow_le (INR (S j)) m (pos_INR _)) as Q0. pose proof (pow_le (INR (S k)) 2 (pos_INR _)) as Q2. pose proof (pow_le rho k ltac:(lra)) as Q3.
  apply Rle_trans with (4 / (2 * PI) ^ j * INR (S j) ^ m * (INR (S j) ^ 2 * rho ^ j)).
  { apply Rmult_le_compat; [apply Rabs_pos|apply Rmult_le_pos; assumption|exact A|apply Rmult_le_compat; assumption]. }
  replace (4 / (2 * PI) ^ j * INR (S j) ^ m * (INR (S j) ^ 2 * rho ^ j)) with (4 * (INR (S j) ^ (m + 2) * r ^ j)).
  2:{ unfold r, Rdiv. rewrite Rpow_mult_distr, pow_inv by lra. rewrite pow_add. field. lra. }
  rewrite Rmult_assoc. apply Rmult_le_compat_l; [lra|]. rewrite <- SS, Rpow_mult_distr.
  specialize (HM j). change (norm ?x) with (Rabs x) in HM. pose proof (Rle_trans _ _ _ (Rle_abs _) HM) as HM'. cbv beta in HM'. change (s ^ S j) with (s * s ^ j) in HM'.
  pose proof (pow_lt s j ltac:(lra)) as SJ.
  apply Rle_trans with (M / s * s ^ j).
  - set (X := INR (S j) ^ (m + 2)) in *. clearbody X. set (y := s ^ j) in *. clearbody y. replace (X * (y * y)) with (X * (s * y) * (y / s)) by (field; lra). replace (M / s * y) with (M * (y / s)) by (field; lra).
    apply Rmult_le_compat_r; [apply Rdiv_le_0_compat; lra|exact HM'].
  - apply Rmult_le_compat_l; [exact MS|]. unfold j. rewrite pow_add. rewrite <- (Rmult_1_l (s ^ k)) at 2. apply Rmult_le_compat_r; [apply pow_le; lra|]. rewrite <- (pow1 m). apply pow_incr. lra.
Qed.
Lemma geo_sum_bd B s : 0 <= B -> 0 < s < 1 -> forall K, sum_f_R0 (fun k => B * s ^ k) K <= B / (1 - s).
Proof.
  intros B0 Hs K. rewrite <- (sum_eq (fun k => s ^ k * B)) by (intros; ring). rewrite <- scal_sum, tech3 by lra. unfold Rdiv. apply Rmult_le_compat_l; [exact B0|].
  rewrite <- (Rmult_1_l (/ (1 - s))) at 2. apply Rmult_le_compat_r; [left; apply Rinv_0_lt_compat; lra|]. pose proof (pow_lt s (S K) ltac:(lra)). lra.
Qed.
(** ** e^w = 1 only at multiples of 2 pi i *)
Lemma Cexp_ne1 (w : C) : w <> RtoC 0 -> Cmod w < 2 * PI -> Cexp w <> RtoC 1.
Proof.
  intros W0 W1 E. pose proof PI_RGT_0 as PP. destruct w as [x y]. unfold Cexp in E. cbn [fst snd] in E. injection E as E1 E2. pose proof (exp_pos x) as EP.
  assert (S0 : sin y = 0) by (apply (Rmult_eq_reg_l (exp x)); lra). pose proof (sin2_cos2 y) as SC. unfold Rsqr in SC. rewrite S0 in SC.
  assert (C1 : cos y = 1) by nra. rewrite C1, Rmult_1_r in E1. assert (X : x = 0) by (rewrite <- ln_1, <- E1, ln_exp; reflexivity). subst x.
  pose proof (Cmod_snd (0, y)) as A. cbn [snd] in A. assert (Y : Rabs y < 2 * PI) by lra. apply Rabs_def2 in Y.
  pose proof (cos_2a (y / 2)) as C2. replace (2 * (y / 2)) with y in C2 by field. rewrite C1 in C2. pose proof (sin2_cos2 (y / 2)) as S2. unfold Rsqr in S2.
  assert (SH : sin (y / 2) = 0) by nra. destruct (Rtotal_order y 0) as [L|[L|L]].
  - pose proof (sin_gt_0 (- (y / 2)) ltac:(lra) ltac:(lra)) as G. rewrite sin_neg in G. lra.
  - apply W0. subst y. reflexivity.
  - pose proof (sin_gt_0 (y / 2) ltac:(lra) ltac:(lra)). lra.
Qed.
(** ** the expansion *)
Definition pole (m : nat) (w : C) : C := Cmult (RtoC (INR (fact m))) (Cinv (Cpow (Copp w) (S m))).
Lemma neg_base (w : C) : w <> RtoC 0 -> Cmod w < 2 * PI -> Csums (ps (nco 0) w) (Cminus (Li_neg 0 (Cexp w)) (pole 0 w)).
Proof.
  intros W0 W1. pose proof PI_RGT_0 as PP. pose proof (Cexp_ne1 w W0 W1) as E1.
  assert (EN : Cminus (Cexp w) (RtoC 1) <> RtoC 0). { intros E. apply E1. replace (Cexp w) with (Cplus (Cminus (Cexp w) (RtoC 1)) (RtoC 1)) by ring. rewrite E. ring. }
  assert (EN' : Cminus (RtoC 1) (Cexp w) <> RtoC 0). { intros E. apply E1. replace (Cexp w) with (Cminus (RtoC 1) (Cminus (RtoC 1) (Cexp w))) by ring. rewrite E. ring. }
  assert (DP : 0 < Cmod (Cminus (Cexp w) (RtoC 1))) by (apply Cmod_gt_0, EN). set (dn := Cmod (Cminus (Cexp w) (RtoC 1))) in *.
  assert (R1 : 0 <= rw w < 1) by (split; [apply rw_pos|unfold rw; apply Rlt_div_l; lra]).
  assert (B : forall K, Cmod (Cminus (Csum (ps (nco 0) w) (S K)) (Cminus (Li_neg 0 (Cexp w)) (pole 0 w))) <= 4 * INR (S (S K)) * G0 * rw w ^ S (S K) / dn).
  { intros K. assert (CE : Csum (ps (nco 0) w) (S K) = cpev (bL (S K)) w).
    { unfold bL. rewrite cpev_seq. apply Csum_ext. intros k _. unfold ps, nco. cbn [Nat.add]. do 2 f_equal. unfold inv_fact. field. apply INR_fact_neq_0. }
    assert (ID : Cminus (Csum (ps (nco 0) w) (S K)) (Cminus (Li_neg 0 (Cexp w)) (pole 0 w)) = Copp (Cdiv (Cminus (Cmult (Csum (ak w) (S (S K))) (Gw w)) (RtoC 1)) (Cminus (Cexp w) (RtoC 1)))).
    { rewrite CE. unfold Li_neg, pole. cbn [Qpoly peval fact Cpow INR]. pose proof (bL_P w (S K) ltac:(lia)) as E. set (b := cpev (bL (S K)) w) in *. set (p := Csum (ak w) (S (S K))) in *.
      replace b with (Cdiv (Cmult w b) w) by (field; exact W0). rewrite E. unfold Gw. clearbody p b. set (x := Cexp w) in *. clearbody x.
      assert (Copp w <> RtoC 0) by (intros Q; apply W0; replace w with (Copp (Copp w)) by ring; rewrite Q; ring). field. repeat split; assumption. }
    rewrite ID, Cmod_opp, Cmod_div by exact EN. fold dn. unfold Rdiv. apply Rmult_le_compat_r; [left; apply Rinv_0_lt_compat, DP|]. apply P_res; [exact W0|lra|lia]. }
  unfold Csums. apply is_lim_seq_incr_1. apply is_lim_seq_spec. intros [e He]. cbn [pos].
  assert (GP : 0 < G0) by (unfold G0; apply Rmult_lt_0_compat; apply exp_pos). set (A := 4 * G0 / dn). assert (AP : 0 < A) by (apply Rdiv_lt_0_compat; lra).
  destruct (nr_zero (rw w) R1 (e / A) ltac:(apply Rdiv_lt_0_compat; assumption)) as (K0 & HK). exists K0. intros K HKK. rewrite Rminus_0_r, Rabs_pos_eq by apply Cmod_ge_0.
  eapply Rle_lt_trans; [apply B|]. specialize (HK (S K) ltac:(lia)). apply Rmult_lt_compat_r with (r := A) in HK; [|exact AP]. replace (e / A * A) with e in HK by (field; lra).
  eapply Rle_lt_trans; [|exact HK]. change (rw w ^ S (S K)) with (rw w * rw w ^ S K). pose proof (pow_le (rw w) (S K) (proj1 R1)) as Q. pose proof (pos_INR (S (S K))) as I.
  replace (4 * INR (S (S K)) * G0 * (rw w * rw w ^ S K) / dn) with (INR (S (S K)) * rw w ^ S K * A * rw w) by (unfold A; field; lra).
  rewrite <- Rmult_1_r. apply Rmult_le_compat_l; [|lra]. apply Rmult_le_pos; [apply Rmult_le_pos; assumption|lra].
Qed.
Lemma Cder_shift (w : C) : Cder (fun t => Cplus w (RtoC t)) 0 (RtoC 1).
Proof.
  apply (Cder_quad _ _ 0 1 ltac:(lra)). intros h _. replace (Cminus (Cminus (Cplus w (RtoC h)) (Cplus w (RtoC 0))) (Cmult (RtoC h) (RtoC 1))) with (RtoC 0) by ring. rewrite Cmod_0. lra.
Qed.
Lemma Cder_cpow (f : R -> C) t d : Cder f t d -> forall k, Cder (fun t => Cpow (f t) (S k)) t (Cmult (Cmult (RtoC (INR (S k))) (Cpow (f t) k)) d).
Proof.
  intros H. induction k as [|k IH].
  - apply (Cder_ext f); [intros u; cbn [Cpow]; ring|]. eapply Cder_eq; [|exact H]. cbn [Cpow INR]. ring.
  - apply (Cder_ext (fun t => Cmult (f t) (Cpow (f t) (S k)))); [intros u; reflexivity|]. eapply Cder_eq; [|apply Cder_mult; [exact H|exact IH]]. rewrite (S_INR (S k)), RtoC_plus. cbn [Cpow]. ring.
Qed.
Lemma Cpow_ne w k : w <> RtoC 0 -> Cpow w k <> RtoC 0.
Proof. intros H E. apply (f_equal Cmod) in E. rewrite Cpow_mod, Cmod_0 in E. revert E. apply pow_nonzero. intros Q. apply H. apply Cmod_eq_0, Q. Qed.
Lemma Cder_pole m (w : C) : w <> RtoC 0 -> Cder (fun t => pole m (Cplus w (RtoC t))) 0 (pole (S m) w).
Proof.
  intros W0. assert (W' : Copp w <> RtoC 0) by (intros Q; apply W0; replace w with (Copp (Copp w)) by ring; rewrite Q; ring).
  assert (A : Cder (fun t => Copp (Cplus w (RtoC t))) 0 (Copp (RtoC 1))) by (apply Cder_opp, Cder_shift).
  pose proof (Cder_cpow _ _ _ A m) as B. assert (E0 : Copp (Cplus w (RtoC 0)) = Copp w) by ring.
  unfold pole. eapply Cder_eq; [|apply Cder_mult; [apply Cder_const|apply Cder_inv; [|exact B]]]; cbv beta; rewrite E0; [|apply Cpow_ne, W'].
  rewrite (fact_simpl m), mult_INR, RtoC_mult. pose proof (Cpow_ne _ m W') as P1. change (Cpow (Copp w) (S m)) with (Cmult (Copp w) (Cpow (Copp w) m)).
  change (Cpow (Copp w) (S (S m))) with (Cmult (Copp w) (Cmult (Copp w) (Cpow (Copp w) m))). set (p := Cpow (Copp w) m) in *. set (u := Copp w) in *. clearbody p u. field. split; assumption.
Qed.
Lemma Cexp_shift w t : Cexp (Cplus w (RtoC t)) = Cmult (RtoC (exp (1 * t))) (Cexp w).
Proof. rewrite Rmult_1_l, Cexp_plus. rewrite Cmult_comm. f_equal. unfold Cexp, RtoC. cbn [fst snd]. rewrite cos_0, sin_0. f_equal; ring. Qed.
Lemma Cexp_ne0 w : Cexp w <> RtoC 0.
Proof. intros E. pose proof (Cexp_neg w) as Q. rewrite E in Q. apply (f_equal fst) in Q. unfold Cmult, RtoC in Q. cbn [fst snd] in Q. lra. Qed.
Theorem neg_expansion m : forall w : C, w <> RtoC 0 -> Cmod w < 2 * PI -> Csums (ps (nco m) w) (Cminus (Li_neg m (Cexp w)) (pole m w)).
Proof.
  induction m as [|m IH]; intros w W0 W1; [apply neg_base; assumption|]. pose proof PI_RGT_0 as PP. pose proof PI2_3_2 as P3.
  set (rho := Rmax 1 ((Cmod w + 2 * PI) / 2)). assert (HR : 1 <= rho < 2 * PI) by (unfold rho; split; [apply Rmax_l|apply Rmax_lub_lt; lra]).
  assert (HR2 : (Cmod w + 2 * PI) / 2 <= rho) by apply Rmax_r.
  destruct (nco_geo m rho HR) as (B & s & B0 & Hs & G).
  assert (SUM : forall K, sum_f_R0 (fun k => Rabs (nco m k) * (INR k ^ 2 * rho ^ k)) K <= B / (1 - s)).
  { intros K. eapply Rle_trans; [|apply (geo_sum_bd B s B0 Hs K)]. apply sum_Rle. intros k _. eapply Rle_trans; [|apply G]. apply Rmult_le_compat_l; [apply Rabs_pos|].
    apply Rmult_le_compat_r; [apply pow_le; lra|]. apply pow_incr. split; [apply pos_INR|apply le_INR; lia]. }
  destruct (nco_geo (S m) rho HR) as (B' & s' & B0' & Hs' & G').
  destruct (ex_Csums (ps (nco (S m)) w) B' s') as (D & HD); [lra| |].
  { intros k. unfold ps. rewrite Cmod_mult, Cmod_R, Cpow_mod. eapply Rle_trans; [|apply G']. apply Rmult_le_compat_l; [apply Rabs_pos|].
    assert (W2 : Cmod w <= rho) by lra. pose proof (pow_incr (Cmod w) rho k (conj (Cmod_ge_0 w) W2)) as Q. pose proof (pow_le (Cmod w) k (Cmod_ge_0 w)).
    assert (I1 : 1 <= INR (S k) ^ 2) by (apply pow_R1_Rle; rewrite S_INR; pose proof (pos_INR k); lra).
    apply Rle_trans with (1 * rho ^ k); [lra|]. apply Rmult_le_compat_r; lra. }
  assert (WP : 0 < Cmod w) by (apply Cmod_gt_0, W0). set (d := Rmin (Cmod w) ((2 * PI - Cmod w) / 2)). assert (d0 : 0 < d) by (apply Rmin_pos; lra).
  assert (NEAR : forall h, Rabs h < d -> Cplus w (RtoC h) <> RtoC 0 /\ Cmod (Cplus w (RtoC h)) <= rho /\ Cmod (Cplus w (RtoC h)) < 2 * PI).
  { intros h Hh. pose proof (Rlt_le_trans _ _ _ Hh (Rmin_l _ _)) as H1. pose proof (Rlt_le_trans _ _ _ Hh (Rmin_r _ _)) as H2. split.
    - intros E. assert (w = RtoC (- h)) as W. { rewrite RtoC_opp. replace w with (Cminus (Cplus w (RtoC h)) (RtoC h)) by ring. rewrite E. ring. } rewrite W, Cmod_R, Rabs_Ropp in H1. lra.
    - pose proof (Cmod_triangle w (RtoC h)) as T. rewrite Cmod_R in T. lra. }
  set (F := fun t => Cminus (Li_neg m (Cexp (Cplus w (RtoC t)))) (pole m (Cplus w (RtoC t)))).
  assert (Z0 : Cplus w (RtoC 0) = w) by ring.
  assert (D1 : Cder F 0 D).
  { apply (Cder_quad F D (B / (1 - s)) d d0). intros h Hh. destruct (NEAR h Hh) as (N1 & N2 & N3). unfold F. rewrite Z0.
    replace (h ^ 2) with (Cmod (RtoC h) ^ 2) by (rewrite Cmod_R, pow2_abs; reflexivity).
    apply (ps_quad_lim (nco m) (B / (1 - s)) w (RtoC h) _ _ D rho); [lra|lra|exact N2|exact SUM|apply IH; assumption|apply IH; assumption|].
    apply (is_lim_seq_ext (fun K => Cmod (Cminus (Csum (ps (nco (S m)) w) K) D))); [|exact HD]. intros K. do 2 f_equal. apply Csum_ext. intros k _. unfold ps. rewrite nco_der. reflexivity. }
  assert (D2 : Cder F 0 (Cminus (Li_neg (S m) (Cexp w)) (pole (S m) w))).
  { unfold F, Cminus. apply Cder_plus; [|apply Cder_opp, Cder_pole, W0].
    apply (Cder_ext (fun t => Li_neg m (Cmult (RtoC (exp (1 * t))) (Cexp w)))); [intros u; rewrite Cexp_shift; reflexivity|].
    eapply Cder_eq; [|apply Cder_Li_neg; [apply Cexp_ne0|apply Cexp_ne1; assumption]]. ring. }
  rewrite <- (Cder_unique _ _ _ _ D1 D2). exact HD.
Qed.
