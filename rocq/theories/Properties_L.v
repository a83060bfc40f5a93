(** * C38: zeros and extremes of the Clausen functions *)
From Coq Require Import ZArith Reals List Bool Lra Lia Psatz.
From Coquelicot Require Import Coquelicot.
From Flocq Require Import Core IEEE754.BinarySingleNaN.
From Interval Require Import Tactic.
From Verif Require Import Num NumR NumB NumB_facts Libm Outcome Spec Eval_R Consts Model_Tables Model_Zeta Model_Cl16 Model_Cl Proof_Int Proof_Special Ieee Polylog Polylog_series Zeta_num Cl_full Reduce Properties_A Properties_C Properties_E Properties_F.
Import ListNotations.
Local Open Scope Z_scope.

(** the double nearest to pi *)
Definition pi64 (s : bool) : f64 := let p := blit 53 1024 Hp53 He53 314159265358979324 (-17) in if s then Bopp p else p.
(** every even order vanishes at +-pi, exactly *)
Theorem C38_even_pi L n s : 2 <= n -> Z.even n = true -> Cl (B64 L) n (pi64 s) = Val (B754_zero false).
Proof.
  intros Hn E. rewrite <- even_Zeven in E. unfold Cl. destruct (Z.ltb_spec n 1); [lia|].
  destruct (Z.eqb_spec n 1). { subst; discriminate. }
  destruct (Z.eqb_spec n 2). { destruct s; vm_compute; reflexivity. }
  destruct (Z.eqb_spec n 3). { subst; discriminate. }
  destruct (Z.eqb_spec n 4). { destruct s; vm_compute; reflexivity. }
  destruct (Z.eqb_spec n 5). { subst; discriminate. }
  destruct (Z.eqb_spec n 6). { destruct s; vm_compute; reflexivity. }
  unfold Cl_range_reduce. rewrite E.
  assert (R : exists t, range_reduce_flip (B64 L) (pi64 s) = (t, Cl_PI (B64 L))).
  { exists (lit (B64 L) (if s then -1 else 1) 0). unfold range_reduce_flip. cbv zeta.
    assert (B : opp (B64 L) (pi64 true) = Cl_PI (B64 L)) by (unfold pi64; apply Bopp_involutive).
    destruct s.
    - replace (ltb (B64 L) (pi64 true) (lit (B64 L) 0 0)) with true by (vm_compute; reflexivity). rewrite B.
      replace (leb (B64 L) (Cl_PI2 (B64 L)) (Cl_PI (B64 L))) with false by (vm_compute; reflexivity).
      replace (ltb (B64 L) (Cl_PI (B64 L)) (Cl_PI (B64 L))) with false by (vm_compute; reflexivity). reflexivity.
    - change (pi64 false) with (Cl_PI (B64 L)). replace (ltb (B64 L) (Cl_PI (B64 L)) (lit (B64 L) 0 0)) with false by (vm_compute; reflexivity).
      replace (leb (B64 L) (Cl_PI2 (B64 L)) (Cl_PI (B64 L))) with false by (vm_compute; reflexivity).
      replace (ltb (B64 L) (Cl_PI (B64 L)) (Cl_PI (B64 L))) with false by (vm_compute; reflexivity). reflexivity. }
  destruct R as [t ->].
  replace (eqb (B64 L) (Cl_PI (B64 L)) (lit (B64 L) 0 0)) with false by (vm_compute; reflexivity).
  replace (eqb (B64 L) (Cl_PI (B64 L)) (Cl_PI (B64 L))) with true by (vm_compute; reflexivity). reflexivity.
Qed.
(** ... and at +-0 (the argument itself is returned: C14_Cl_even_zero) *)
Theorem C38_even_zero L n s : 2 <= n -> Z.even n = true -> Cl (B64 L) n (B754_zero s) = Val (B754_zero s).
Proof. intros H. apply Cl_even_zero. lia. Qed.
(** order 1 is +infinity at +-0 *)
Theorem C38_order_1 L s : Cl (B64 L) 1 (B754_zero s) = Val (B754_infinity false).
Proof. destruct s; vm_compute; reflexivity. Qed.
(** orders 3 and 5: within 1 ulp-scale of zeta(n) *)
Lemma ser_ReLi n s : (2 <= n)%nat -> is_series (fun k => / INR (S k) ^ n)%R s -> s = ReLi n 1.
Proof.
  intros H S. rewrite <- (is_series_unique _ _ S). apply is_series_unique. eapply is_series_ext; [|exact (zeta_is_series n H)]. intros k. unfold aterm. cbn [andb]. unfold Rdiv. apply Rmult_1_l.
Qed.
Lemma ofZ_pos L m : 1 <= m <= 10 -> is_finite (ofZ (B64 L) m : f64) = true /\ (0 < B2R (ofZ (B64 L) m : f64))%R.
Proof.
  intros H. split.
  - assert (K : forallb (fun m => is_finite (bnorm 53 1024 Hp53 He53 m 0)) [1;2;3;4;5;6;7;8;9;10] = true) by (vm_compute; reflexivity).
    rewrite forallb_forall in K. apply K. cbn [In]. lia.
  - assert (K : forallb (fun m => Bltb (B754_zero false) (bnorm 53 1024 Hp53 He53 m 0)) [1;2;3;4;5;6;7;8;9;10] = true) by (vm_compute; reflexivity).
    rewrite forallb_forall in K. specialize (K m ltac:(cbn [In]; lia)). 
    assert (F : is_finite (bnorm 53 1024 Hp53 He53 m 0) = true).
    { assert (K2 : forallb (fun m => is_finite (bnorm 53 1024 Hp53 He53 m 0)) [1;2;3;4;5;6;7;8;9;10] = true) by (vm_compute; reflexivity).
      rewrite forallb_forall in K2. apply K2. cbn [In]. lia. }
    unfold Bltb in K. rewrite SFltb_Bltb in K || idtac.
    pose proof (Bltb_correct 53 1024 (B754_zero false) (bnorm 53 1024 Hp53 He53 m 0) eq_refl F) as C. unfold Bltb in C. rewrite K in C. symmetry in C.
    change (B2R (B754_zero false)) with 0%R in C. destruct (Rlt_bool_spec 0 (B2R (bnorm 53 1024 Hp53 He53 m 0))); [assumption|discriminate].
Qed.
Definition zr (s : bool) : f64 := B754_zero s.
Definition isz (o : out f64) : bool := match o with Val (B754_zero _) => true | _ => false end.
Lemma ncal_zero L s m : libm_ok (Hp := Hp53) (He := He53) L -> 0 <= m <= 9 -> exists t, ncal (B64 L) m (zr s) = Val (zr t).
Proof.
  intros HL Hm. destruct (ofZ_pos L (m + 1) ltac:(lia)) as [F P]. destruct (pow_zero _ _ _ _ _ HL s _ F P) as [t E].
  unfold ncal. change (npow (B64 L) (zr s) (ofZ (B64 L) (m + 1))) with (m_pow _ _ L (B754_zero s) (ofZ (B64 L) (m + 1))). rewrite E. clear E F P.
  assert (C : m = 0 \/ m = 1 \/ m = 2 \/ m = 3 \/ m = 4 \/ m = 5 \/ m = 6 \/ m = 7 \/ m = 8 \/ m = 9) by lia.
  match goal with |- exists t, ?X = _ => assert (K : isz X = true) end.
  { destruct s, t; repeat (destruct C as [-> | C]; [vm_compute; reflexivity|]); subst m; vm_compute; reflexivity. }
  match goal with |- exists t, ?X = _ => destruct X as [v| |]; try discriminate K end. destruct v; try discriminate K. eexists. reflexivity.
Qed.

Lemma mul_zero L (a : f64) s : is_finite a = true -> exists t, mul (B64 L) a (zr s) = zr t.
Proof. intros H. destruct a; try discriminate H; eexists; reflexivity. Qed.
Lemma add_zero L s t : exists u, add (B64 L) (zr s) (zr t) = zr u.
Proof. destruct s, t; eexists; reflexivity. Qed.
Lemma bin_ok L n i : n = 7 \/ n = 9 -> 0 <= i <= n - 3 -> exists row b, zref binomial (n - 2) = Val row /\ zref row i = Val b /\ is_finite (ofZ (B64 L) b : f64) = true /\ is_finite (mul (B64 L) (ofZ (B64 L) b) (lit (B64 L) 1 0) : f64) = true.
Proof.
  intros Hn Hi.
  assert (K : forall n, n = 7 \/ n = 9 -> forallb (fun i => match zref binomial (n - 2) with Val row => match zref row i with Val b => (is_finite (bnorm 53 1024 Hp53 He53 b 0) && is_finite (Bmult mode_NE (bnorm 53 1024 Hp53 He53 b 0) (blit 53 1024 Hp53 He53 1 0)))%bool | _ => false end | _ => false end) (map Z.of_nat (seq 0 (Z.to_nat (n - 2)))) = true).
  { intros m [-> | ->]; vm_compute; reflexivity. }
  specialize (K n Hn). rewrite forallb_forall in K. specialize (K i). destruct (zref binomial (n - 2)) as [row| |].
  2,3: discriminate K; apply in_map_iff; exists (Z.to_nat i); (split; [lia|apply in_seq; lia]).
  destruct (zref row i) as [b| |] eqn:E.
  2,3: discriminate K; apply in_map_iff; exists (Z.to_nat i); (split; [lia|apply in_seq; lia]).
  exists row, b. split; [reflexivity|]. split; [exact E|]. apply andb_prop. apply K. apply in_map_iff. exists (Z.to_nat i). split; [lia|apply in_seq; lia].
Qed.
Lemma fin_mul_one L (a b : f64) : is_finite a = true -> is_finite (mul (B64 L) a (lit (B64 L) 1 0) : f64) = true -> (b = zr true \/ b = zr false \/ b = lit (B64 L) 1 0) -> is_finite (mul (B64 L) a b : f64) = true.
Proof.
  intros H H1 [-> | [-> | ->]]; [destruct (mul_zero L a true H) as [t ->]; reflexivity|destruct (mul_zero L a false H) as [t ->]; reflexivity|exact H1].
Qed.
Lemma nsum_loop_zero L s n : libm_ok (Hp := Hp53) (He := He53) L -> n = 7 \/ n = 9 -> forall cnt i u xn, 0 <= i ->
  (xn = zr true \/ xn = zr false \/ xn = lit (B64 L) 1 0) ->
  exists t xn', nsum_loop (B64 L) cnt i n (zr s) (zr u) xn = Val (zr t, xn') /\ (xn' = zr true \/ xn' = zr false \/ xn' = lit (B64 L) 1 0).
Proof.
  intros HL Hn. induction cnt as [|c IH]; intros i u xn Hi Hx; [exists u, xn; split; [reflexivity|exact Hx]|]. cbn [nsum_loop].
  destruct (Z.leb_spec i (n - 3)) as [C|C]; [|exists u, xn; split; [reflexivity|exact Hx]].
  destruct (bin_ok L n i Hn ltac:(lia)) as (row & b & -> & E & F & F1). cbn [bind]. rewrite E. cbn [bind].
  destruct (ncal_zero L s (n - 2 - i) HL ltac:(lia)) as [t ->]. cbn [bind].
  destruct (mul_zero L (mul (B64 L) (ofZ (B64 L) b) xn) t (fin_mul_one L _ _ F F1 Hx)) as [t1 ->]. destruct (add_zero L u t1) as [t2 ->].
  apply IH; [lia|]. change (opp (B64 L) (zr s)) with (zr (negb s)). destruct (mul_zero L xn (negb s)) as [t3 ->].
  - destruct Hx as [-> | [-> | ->]]; vm_compute; reflexivity.
  - destruct t3; auto.
Qed.
Lemma nsum_zero L s n : libm_ok (Hp := Hp53) (He := He53) L -> n = 7 \/ n = 9 -> exists t, nsum (B64 L) n (zr s) = Val (zr t).
Proof.
  intros HL Hn. unfold nsum. destruct (nsum_loop_zero L s n HL Hn (Z.to_nat n) 0 false (lit (B64 L) 1 0) ltac:(lia) ltac:(auto)) as (t & xn & E & X).
  change (lit (B64 L) 0 0) with (zr false). rewrite E. cbn [bind fst snd]. destruct (ncal_zero L s 0 HL ltac:(lia)) as [t1 ->]. cbn [bind].
  destruct (mul_zero L xn t1) as [t2 ->]; [destruct X as [-> | [-> | ->]]; vm_compute; reflexivity|]. destruct (add_zero L t t2) as [t3 ->]. eauto.
Qed.

(** odd orders 3, 5, 7, 9 at +-0: the same double as zeta(n) *)
Theorem C38_zeta_3_5 L s : Cl (B64 L) 3 (B754_zero s) = zeta (B64 L) 3 /\ Cl (B64 L) 5 (B754_zero s) = zeta (B64 L) 5.
Proof.
  split; destruct s; reflexivity.
Qed.
Lemma noflip_zero L s : range_reduce_noflip (B64 L) (zr s) = zr s.
Proof.
  unfold range_reduce_noflip; cbv zeta;
    (replace (ltb (B64 L) (zr s) (lit (B64 L) 0 0)) with false by (destruct s; reflexivity));
    (replace (leb (B64 L) (Cl_PI2 (B64 L)) (zr s)) with false by (destruct s; vm_compute; reflexivity));
    (replace (ltb (B64 L) (Cl_PI (B64 L)) (zr s)) with false by (destruct s; vm_compute; reflexivity)); reflexivity.
Qed.
Definition z7 L : B64 L := lit (B64 L) 10083492773819228 (-16).
Definition z9 L : B64 L := lit (B64 L) 10020083928260822 (-16).
Lemma z79_arith L u : add (B64 L) (lit (B64 L) 0 0) (sub (B64 L) (z7 L) (zr u)) = z7 L /\ mul (B64 L) (lit (B64 L) 1 0) (z7 L) = z7 L /\
  add (B64 L) (lit (B64 L) 0 0) (sub (B64 L) (z9 L) (zr u)) = z9 L /\ mul (B64 L) (lit (B64 L) 1 0) (z9 L) = z9 L.
Proof. repeat split; apply B2SF_inj; destruct u; vm_compute; reflexivity. Qed.
Definition SFo (o : out f64) : option SpecFloat.spec_float := match o with Val v => Some (B2SF v) | _ => None end.
Lemma SFo_inj o (v : f64) : SFo o = Some (B2SF v) -> o = Val v.
Proof. destruct o as [w| |]; try discriminate. cbn. intros H. injection H as H. f_equal. apply B2SF_inj. exact H. Qed.
Lemma pcal79 L s : pcal (B64 L) 7 (zr s) = Val (z7 L) /\ pcal (B64 L) 9 (zr s) = Val (z9 L).
Proof. split; apply SFo_inj; destruct s; vm_compute; reflexivity. Qed.
Theorem C38_zeta_7_9 L s : libm_ok (Hp := Hp53) (He := He53) L -> Cl (B64 L) 7 (B754_zero s) = zeta (B64 L) 7 /\ Cl (B64 L) 9 (B754_zero s) = zeta (B64 L) 9.
Proof.
  intros HL. destruct (pcal79 L s) as [P7 P9]. destruct (nsum_zero L s 7 HL (or_introl eq_refl)) as [t7 N7]. destruct (nsum_zero L s 9 HL (or_intror eq_refl)) as [t9 N9].
  change (zeta (B64 L) 7) with (Val (z7 L)). change (zeta (B64 L) 9) with (Val (z9 L)).
  assert (C : forall n, n = 7 \/ n = 9 -> Cl_range_reduce (B64 L) n (zr s) = (lit (B64 L) 1 0, zr s)) by (intros n [-> | ->]; unfold Cl_range_reduce; [change (is_even 7) with false|change (is_even 9) with false]; cbv iota; rewrite noflip_zero; reflexivity).
  assert (E0 : eqb (B64 L) (zr s) (lit (B64 L) 0 0) = true) by (destruct s; reflexivity).
  split; unfold Cl; change (B754_zero s) with (zr s); rewrite C by auto; cbn [Z.ltb Z.leb Z.eqb Z.compare Pos.compare Pos.compare_cont Pos.eqb]; rewrite E0;
    [change (is_even 7) with false|change (is_even 9) with false]; change N_THRESH with 9; cbn [andb Z.leb Z.compare Pos.compare Pos.compare_cont].
  - change (zref (inverse_factorial (B64 L)) (7 - 1)) with (Val (div (B64 L) (lit (B64 L) 1 0) (lit (B64 L) 720 0))). cbn [bind]. cbv zeta. rewrite P7. cbn [bind].
    change (zref (inverse_factorial (B64 L)) (7 - 2)) with (Val (div (B64 L) (lit (B64 L) 1 0) (lit (B64 L) 120 0))). cbn [bind]. rewrite N7. cbn [bind].
    match goal with |- context[mul (B64 L) ?a (zr t7)] => destruct (mul_zero L a t7) as [u ->]; [vm_compute; reflexivity|] end.
    destruct (z79_arith L u) as (A & B & _). rewrite A, B. reflexivity.
  - change (zref (inverse_factorial (B64 L)) (9 - 1)) with (Val (div (B64 L) (lit (B64 L) 1 0) (lit (B64 L) 40320 0))). cbn [bind]. cbv zeta. rewrite P9. cbn [bind].
    change (zref (inverse_factorial (B64 L)) (9 - 2)) with (Val (div (B64 L) (lit (B64 L) 1 0) (lit (B64 L) 5040 0))). cbn [bind]. rewrite N9. cbn [bind].
    match goal with |- context[mul (B64 L) ?a (zr t9)] => destruct (mul_zero L a t9) as [u ->]; [vm_compute; reflexivity|] end.
    destruct (z79_arith L u) as (_ & _ & A & B). rewrite A, B. reflexivity.
Qed.
(** ... which is within 3 units of 2^-53 of the sum of 1/k^n *)
Theorem C38_zeta_value L s n (z : R) : libm_ok (Hp := Hp53) (He := He53) L -> (n = 3 \/ n = 5 \/ n = 7 \/ n = 9)%nat -> is_series (fun k => / INR (S k) ^ n)%R z ->
  exists f, Cl (B64 L) (Z.of_nat n) (B754_zero s) = Val f /\ rel64 3 f z.
Proof.
  intros HL Hn S. destruct (C02_zeta_positive L HL n z) as (f & E & R); [lia|unfold INT64_MAX; lia|exact S|]. exists f. split; [|exact R]. rewrite <- E.
  destruct (C38_zeta_3_5 L s) as [E3 E5]. destruct (C38_zeta_7_9 L s HL) as [E7 E9]. destruct Hn as [-> | [-> | [-> | ->]]]; assumption.
Qed.
(** odd order from 10 on, exact arithmetic: within 4.2 eps of the sum of 1/k^n *)
Theorem C38_zeta_large (n : Z) (z : R) : 10 <= n -> Z.even n = false -> is_series (fun k => / INR (S k) ^ Z.to_nat n)%R z ->
  exists v, Cl RD n (Some 0%R) = Val (Some v) /\ (Rabs (v - z) <= 42 / 10 * / 2 ^ 52)%R.
Proof.
  intros Hn E S. destruct (C21_Cl_series_accuracy n 0 Hn) as (v & s & x' & V & SM & B & _ & X). exists v. split; [exact V|].
  rewrite X in SM by (rewrite Rabs_R0; apply Rlt_le; apply (Rlt_trans _ 3); [lra|exact (proj1 HPd)]). rewrite E in SM. unfold cos_sum in SM.
  replace z with s; [exact B|]. rewrite <- (is_series_unique _ _ S). symmetry. apply is_series_unique. eapply is_series_ext; [|exact SM]. intros k. cbn beta. rewrite Rmult_0_r, cos_0. unfold Rdiv. apply Rmult_1_l.
Qed.
Example C38_nonvacuous : exists z, is_series (fun k => / INR (S k) ^ 9)%R z.
Proof. exists (ReLi 9 1). eapply is_series_ext; [|exact (zeta_is_series 9 ltac:(lia))]. intros k. unfold aterm. cbn [andb]. unfold Rdiv. apply Rmult_1_l. Qed.
