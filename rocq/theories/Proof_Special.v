(** * Infinite arguments, signed zeros, special points and dispatch (IEEE instance) *)
From Coq Require Import ZArith Reals List Bool Lia Lra.
From Flocq Require Import Core IEEE754.BinarySingleNaN.
From Verif Require Import Num Outcome NumB Libm Model_Tables Model_Zeta Model_Cl16 Model_SlPoly Model_Cl Model_LiR Model_LiC Model_Li
  Proof_Int Laws_nan Proof_NaN.
Import ListNotations.
Local Open Scope Z_scope.

Notation pinf := (B754_infinity false).
Notation ninf := (B754_infinity true).
Notation zr s := (B754_zero s).

Lemma libm_ok_nan {prec emax Hp He} (L : libm prec emax) : @libm_ok prec emax Hp He L -> libm_nan L.
Proof. intros [] ; constructor; assumption. Qed.

(** ** angles whose reduction is NaN, any arithmetic *)
Section G.
Variable N : num.
Hypothesis H : nan_laws N.
Variables (x y : N) (b : bool).
Hypothesis Hx : ltb N x (lit N 0 0) = b.
Hypothesis Hy : (if b then opp N x else x) = y.
Hypothesis Hle : leb N (mul N (lit N 2 0) (lit N 314159265358979324 (-17))) y = true.
Hypothesis Hf : nfmod N y (mul N (lit N 2 0) (lit N 314159265358979324 (-17))) = nan N.
Lemma flip_red : range_reduce_flip N x = ((if b then lit N (-1) 0 else lit N 1 0), nan N).
Proof.
  unfold range_reduce_flip, Cl_PI2, Cl_PI. rewrite Hx. destruct b; cbv beta iota zeta; rewrite Hy, Hle, Hf; nan_simpl H; reflexivity.
Qed.
Lemma noflip_red : range_reduce_noflip N x = nan N.
Proof.
  unfold range_reduce_noflip, Cl_PI2, Cl_PI. rewrite Hx. cbv zeta. rewrite Hy, Hle, Hf. nan_simpl H. reflexivity.
Qed.
Local Ltac redf f := unfold f; rewrite Hx; destruct b; cbv beta iota delta [negb]; rewrite ?Hy, ?Hle; cbv iota; rewrite ?Hf; nan_prove H.
Lemma Cl1_red : Cl1_d N x = nan N. Proof. redf Cl1_d. Qed.
Lemma Cl2_red : Cl2_d N x = nan N. Proof. redf Cl2_d. Qed.
Lemma Cl3_red : Cl3_d N x = nan N. Proof. redf Cl3_d. Qed.
Lemma Cl4_red : Cl4_d N x = nan N. Proof. redf Cl4_d. Qed.
Lemma Cl5_red : Cl5_d N x = nan N. Proof. redf Cl5_d. Qed.
Lemma Cl6_red : Cl6_d N x = nan N. Proof. redf Cl6_d. Qed.
End G.

Section S.
Variable L : libm 53 1024.
Hypothesis HL : libm_ok (Hp := Hp53) (He := He53) L.
Local Notation N := (B64 L).

Lemma nlog_inf : nlog N pinf = pinf. Proof. apply (log_inf _ _ _ _ _ HL). Qed.

(** ** the real functions at infinity *)
Lemma Li2_pinf : Li2_d N pinf = ninf.
Proof. unfold Li2_d. cbv zeta. rewrite nlog_inf. vm_compute. reflexivity. Qed.
Lemma Li2_ninf : Li2_d N ninf = B754_nan.
Proof.
  unfold Li2_d. cbv zeta.
  replace (sub N (lit N 1 0) ninf) with (pinf : N) by reflexivity.
  replace (opp N ninf) with (pinf : N) by reflexivity.
  rewrite nlog_inf. vm_compute. reflexivity.
Qed.
Lemma Li3_pinf : Li3_d N pinf = ninf.
Proof. unfold Li3_d. cbv zeta. rewrite nlog_inf. vm_compute. reflexivity. Qed.
Lemma Li3_ninf : Li3_d N ninf = ninf.
Proof.
  unfold Li3_d. cbv zeta. replace (opp N ninf) with (pinf : N) by reflexivity.
  rewrite nlog_inf. vm_compute. reflexivity.
Qed.
Lemma Li4_pinf : Li4_d N pinf = ninf.
Proof. unfold Li4_d. cbv zeta. rewrite nlog_inf. vm_compute. reflexivity. Qed.
Lemma Li4_ninf : Li4_d N ninf = ninf.
Proof.
  unfold Li4_d. cbv zeta. replace (opp N ninf) with (pinf : N) by reflexivity.
  rewrite nlog_inf. vm_compute. reflexivity.
Qed.

(** ** Clausen functions at infinity: the reduced angle is NaN *)
Let HN : nan_laws N := NumB_nan_laws _ _ _ _ L (libm_ok_nan L HL).
Let Hlt (s : bool) : ltb N (B754_infinity s) (lit N 0 0) = s. Proof. destruct s; vm_compute; reflexivity. Qed.
Let Hop (s : bool) : (if s then opp N (B754_infinity s) else B754_infinity s) = (pinf : N). Proof. destruct s; reflexivity. Qed.
Let Hle : leb N (mul N (lit N 2 0) (lit N 314159265358979324 (-17))) pinf = true. Proof. vm_compute; reflexivity. Qed.
Let Hfm : nfmod N pinf (mul N (lit N 2 0) (lit N 314159265358979324 (-17))) = nan N. Proof. vm_compute; reflexivity. Qed.
Lemma flip_inf s : range_reduce_flip N (B754_infinity s) = ((if s then lit N (-1) 0 else lit N 1 0), nan N).
Proof. exact (flip_red N HN _ _ s (Hlt s) (Hop s) Hle Hfm). Qed.
Lemma noflip_inf s : range_reduce_noflip N (B754_infinity s) = nan N.
Proof. exact (noflip_red N HN _ _ s (Hlt s) (Hop s) Hle Hfm). Qed.
Lemma Cl1_inf s : Cl1_d N (B754_infinity s) = nan N.
Proof. exact (Cl1_red N HN _ _ s (Hlt s) (Hop s) Hle Hfm). Qed.
Lemma Cl2_inf s : Cl2_d N (B754_infinity s) = nan N.
Proof. exact (Cl2_red N HN _ _ s (Hlt s) (Hop s) Hle Hfm). Qed.
Lemma Cl3_inf s : Cl3_d N (B754_infinity s) = nan N.
Proof. exact (Cl3_red N HN _ _ s (Hlt s) (Hop s) Hle Hfm). Qed.
Lemma Cl4_inf s : Cl4_d N (B754_infinity s) = nan N.
Proof. exact (Cl4_red N HN _ _ s (Hlt s) (Hop s) Hle Hfm). Qed.
Lemma Cl5_inf s : Cl5_d N (B754_infinity s) = nan N.
Proof. exact (Cl5_red N HN _ _ s (Hlt s) (Hop s) Hle Hfm). Qed.
Lemma Cl6_inf s : Cl6_d N (B754_infinity s) = nan N.
Proof. exact (Cl6_red N HN _ _ s (Hlt s) (Hop s) Hle Hfm). Qed.

Theorem Cl_inf n s : (10 <= n -> exists k, series_kmax N n = Val k) -> Cl N n (B754_infinity s) = Val (nan N).
Proof.
  intros K. unfold Cl. destruct (Z.ltb_spec n 1); [reflexivity|].
  destruct (Z.eqb_spec n 1). { rewrite Cl1_inf; reflexivity. }
  destruct (Z.eqb_spec n 2). { rewrite Cl2_inf; reflexivity. }
  destruct (Z.eqb_spec n 3). { rewrite Cl3_inf; reflexivity. }
  destruct (Z.eqb_spec n 4). { rewrite Cl4_inf; reflexivity. }
  destruct (Z.eqb_spec n 5). { rewrite Cl5_inf; reflexivity. }
  destruct (Z.eqb_spec n 6). { rewrite Cl6_inf; reflexivity. }
  pose (sg := if is_even n then (if s then lit N (-1) 0 else lit N 1 0) else lit N 1 0).
  replace (Cl_range_reduce N n (B754_infinity s)) with (sg, nan N)
    by (unfold Cl_range_reduce, sg; rewrite flip_inf, noflip_inf; destruct is_even; reflexivity).
  clearbody sg.
  nan_simpl HN. rewrite !andb_false_r.
  unfold N_THRESH. destruct (Z.leb_spec n 9).
  - destruct (zref_defined (inverse_factorial N) (n - 1)) as [f1 ->]. { change (Z.of_nat (length (inverse_factorial N))) with 9. lia. }
    cbn [bind]. destruct (pcal_defined N n (nan N) ltac:(lia)) as [pc ->]. cbn [bind].
    destruct (zref_defined (inverse_factorial N) (n - 2)) as [f2 ->]. { change (Z.of_nat (length (inverse_factorial N))) with 9. lia. }
    cbn [bind]. destruct (nsum_defined N n (nan N) ltac:(lia)) as [ns ->]. cbn [bind].
    nan_simpl HN. reflexivity.
  - destruct (K ltac:(lia)) as [k Hk].
    unfold cl_series, sin_series, cos_series. rewrite Hk. cbn [bind]. nan_simpl HN.
    rewrite (sin_loop_nan N HN), (cos_loop_nan N HN). destruct is_even; cbn [bind]; nan_simpl HN; reflexivity.
Qed.
Lemma Sl_poly_nan' n f sg : Sl_poly N n = Some f -> f sg (nan N) = nan N.
Proof.
  unfold Sl_poly. generalize (Z.to_nat (n - 1)). intros i Hi.
  do 25 (destruct i as [|i]; [injection Hi as <-; cbv beta delta [Sl_poly_1 Sl_poly_2 Sl_poly_3 Sl_poly_4 Sl_poly_5 Sl_poly_6 Sl_poly_7 Sl_poly_8 Sl_poly_9
  Sl_poly_10 Sl_poly_11 Sl_poly_12 Sl_poly_13 Sl_poly_14 Sl_poly_15 Sl_poly_16 Sl_poly_17 Sl_poly_18 Sl_poly_19 Sl_poly_20
  Sl_poly_21 Sl_poly_22 Sl_poly_23 Sl_poly_24 Sl_poly_25]; nan_prove HN|]).
  destruct i; discriminate Hi.
Qed.
Theorem Sl_inf n s : (26 <= n -> exists k, series_kmax N n = Val k) -> Sl N n (B754_infinity s) = Val (nan N).
Proof.
  intros K. unfold Sl. destruct (Z.ltb_spec n 1); [reflexivity|].
  pose (sg := if is_even n then lit N 1 0 else (if s then lit N (-1) 0 else lit N 1 0)).
  replace (Sl_range_reduce N n (B754_infinity s)) with (sg, nan N)
    by (unfold Sl_range_reduce, sg; rewrite flip_inf, noflip_inf; destruct is_even; reflexivity).
  clearbody sg.
  nan_simpl HN. rewrite andb_false_r.
  destruct (Sl_poly N n) as [f|] eqn:E.
  - rewrite (Sl_poly_nan' n f sg E). reflexivity.
  - apply Sl_poly_range in E; [|lia]. destruct (K ltac:(lia)) as [k Hk].
    unfold sl_series, sin_series, cos_series. rewrite Hk. cbn [bind]. nan_simpl HN.
    rewrite (sin_loop_nan N HN), (cos_loop_nan N HN). destruct is_even; cbn [bind]; nan_simpl HN; reflexivity.
Qed.

(** ** the general polylogarithm at infinity *)
Theorem Li_infinite d fuel n (a b : f64) :
  is_nan a = false -> is_nan b = false -> (exists s, a = B754_infinity s) \/ (exists s, b = B754_infinity s) ->
  Li N d fuel n (a, b) = Val (ninf, zr false).
Proof.
  intros A B C.
  assert (E1 : (isnan N a || isnan N b)%bool = false).
  { change (is_nan a || is_nan b = false)%bool. rewrite A, B. reflexivity. }
  assert (E2 : (isinf N a || isinf N b)%bool = true).
  { destruct C as [[s ->]|[s ->]]; cbn; [reflexivity|apply orb_true_r]. }
  destruct d; cbn [Li fst snd]; rewrite E1, E2; reflexivity.
Qed.

(** ** zeros *)
Lemma Li2_d_zero s : Li2_d N (zr s) = zr s. Proof. destruct s; vm_compute; reflexivity. Qed.
Lemma Li3_d_zero s : Li3_d N (zr s) = zr s. Proof. destruct s; vm_compute; reflexivity. Qed.
Lemma Li4_d_zero s : Li4_d N (zr s) = zr s. Proof. destruct s; vm_compute; reflexivity. Qed.
Lemma cLi2_d_zero s t : cLi2_d N (zr s, zr t) = (zr s, zr t). Proof. destruct s, t; vm_compute; reflexivity. Qed.
Lemma cLi3_d_zero s t : cLi3_d N (zr s, zr t) = (zr s, zr t). Proof. destruct s, t; vm_compute; reflexivity. Qed.
Lemma cLi4_d_zero s t : cLi4_d N (zr s, zr t) = (zr s, zr t). Proof. destruct s, t; vm_compute; reflexivity. Qed.
Lemma cLi5_d_zero s t : cLi5_d N (zr s, zr t) = (zr s, zr t). Proof. destruct s, t; vm_compute; reflexivity. Qed.
Lemma cLi6_d_zero s t : cLi6_d N (zr s, zr t) = (zr s, zr t). Proof. destruct s, t; vm_compute; reflexivity. Qed.
Lemma Cl2_d_zero s : Cl2_d N (zr s) = zr s. Proof. destruct s; vm_compute; reflexivity. Qed.
Lemma Cl4_d_zero s : Cl4_d N (zr s) = zr s. Proof. destruct s; vm_compute; reflexivity. Qed.
Lemma Cl6_d_zero s : Cl6_d N (zr s) = zr s. Proof. destruct s; vm_compute; reflexivity. Qed.
Theorem Li_zero d fuel n s t : Li N d fuel n (zr s, zr t) = Val (zr s, zr t).
Proof.
  destruct d; cbn [Li fst snd];
  replace (isnan N (zr s) || isnan N (zr t))%bool with false by reflexivity;
  replace (isinf N (zr s) || isinf N (zr t))%bool with false by reflexivity;
  replace (eqb N (zr s) (lit N 0 0) && eqb N (zr t) (lit N 0 0))%bool with true by (destruct s, t; reflexivity);
  reflexivity.
Qed.

Lemma flip_zero s : range_reduce_flip N (zr s) = (lit N 1 0, zr s).
Proof.
  unfold range_reduce_flip.
  replace (ltb N (zr s) (lit N 0 0)) with false by (destruct s; vm_compute; reflexivity).
  replace (leb N (Cl_PI2 N) (zr s)) with false by (destruct s; vm_compute; reflexivity).
  cbv zeta iota.
  replace (ltb N (Cl_PI N) (zr s)) with false by (destruct s; vm_compute; reflexivity). reflexivity.
Qed.
Lemma noflip_zero s : range_reduce_noflip N (zr s) = zr s.
Proof.
  unfold range_reduce_noflip.
  replace (ltb N (zr s) (lit N 0 0)) with false by (destruct s; vm_compute; reflexivity).
  cbv zeta iota.
  replace (leb N (Cl_PI2 N) (zr s)) with false by (destruct s; vm_compute; reflexivity).
  replace (ltb N (Cl_PI N) (zr s)) with false by (destruct s; vm_compute; reflexivity). reflexivity.
Qed.
Theorem Cl_even_zero n s : 1 <= n -> Z.even n = true -> Cl N n (zr s) = Val (zr s).
Proof.
  intros Hn E. rewrite <- even_Zeven in E. unfold Cl. destruct (Z.ltb_spec n 1); [lia|].
  destruct (Z.eqb_spec n 1). { subst; discriminate. }
  destruct (Z.eqb_spec n 2). { rewrite Cl2_d_zero; reflexivity. }
  destruct (Z.eqb_spec n 3). { subst; discriminate. }
  destruct (Z.eqb_spec n 4). { rewrite Cl4_d_zero; reflexivity. }
  destruct (Z.eqb_spec n 5). { subst; discriminate. }
  destruct (Z.eqb_spec n 6). { rewrite Cl6_d_zero; reflexivity. }
  unfold Cl_range_reduce. rewrite E, flip_zero.
  replace (eqb N (zr s) (lit N 0 0)) with true by (destruct s; reflexivity). reflexivity.
Qed.
Theorem Sl_odd_zero n s : 1 <= n -> Z.even n = false -> Sl N n (zr s) = Val (zr s).
Proof.
  intros Hn E. rewrite <- even_Zeven in E. unfold Sl. destruct (Z.ltb_spec n 1); [lia|].
  unfold Sl_range_reduce. rewrite E, flip_zero.
  replace (eqb N (zr s) (lit N 0 0)) with true by (destruct s; reflexivity). reflexivity.
Qed.
End S.

(** the other precisions *)
Lemma Li2_f_zero L s : Li2_f (B32 L) (zr s) = zr s. Proof. destruct s; vm_compute; reflexivity. Qed.
Lemma Li2_l_zero L s : Li2_l (B80 L) (zr s) = zr s. Proof. destruct s; vm_compute; reflexivity. Qed.
Lemma Li2_q_zero L s : Li2_q (B128 L) (zr s) = zr s. Proof. destruct s; vm_compute; reflexivity. Qed.

(** ** special points and dispatch of Li, any arithmetic *)
Section D.
Variable N : num.
Theorem Li_at_one d fuel n (a b : N) :
  isnan N a = false -> isnan N b = false -> isinf N a = false -> isinf N b = false ->
  eqb N a (lit N 0 0) = false -> eqb N a (lit N 1 0) = true -> eqb N b (lit N 0 0) = true ->
  Li N d fuel n (a, b) = if n <=? 0 then Val (inf N, inf N) else bind (zeta N n) (fun v => Val (v, b)).
Proof. intros A B C D E F G. destruct d; cbn [Li fst snd]; rewrite A, B, C, D, E, F, G; cbn; destruct (n <=? 0); reflexivity. Qed.
Theorem Li_at_minus_one d fuel n (a b : N) :
  isnan N a = false -> isnan N b = false -> isinf N a = false -> isinf N b = false ->
  eqb N a (lit N 0 0) = false -> eqb N a (lit N 1 0) = false -> eqb N a (lit N (-1) 0) = true -> eqb N b (lit N 0 0) = true ->
  Li N d fuel n (a, b) = bind (neg_eta N n) (fun v => Val (v, b)).
Proof. intros A B C D E F F' G. destruct d; cbn [Li fst snd]; rewrite A, B, C, D, E, F, F', G; cbn; reflexivity. Qed.
(** z is neither NaN, nor infinite, nor 0, 1, -1 *)
Definition ordinary (z : cpx N) : Prop :=
  isnan N (fst z) = false /\ isnan N (snd z) = false /\ isinf N (fst z) = false /\ isinf N (snd z) = false /\
  (eqb N (snd z) (lit N 0 0) = true ->
   eqb N (fst z) (lit N 0 0) = false /\ eqb N (fst z) (lit N 1 0) = false /\ eqb N (fst z) (lit N (-1) 0) = false).
Theorem Li_dispatch d fuel n z : ordinary z -> 2 <= n <= 6 ->
  Li N d fuel n z = Val (if n =? 2 then cLi2_d N z else if n =? 3 then cLi3_d N z else if n =? 4 then cLi4_d N z
                         else if n =? 5 then cLi5_d N z else cLi6_d N z).
Proof.
  intros (A & B & C & D & E) Hn.
  assert (E0 : (eqb N (fst z) (lit N 0 0) && eqb N (snd z) (lit N 0 0))%bool = false).
  { destruct (eqb N (snd z) (lit N 0 0)) eqn:Q; [|apply andb_false_r]. destruct (E eq_refl) as (-> & _). reflexivity. }
  assert (E1 : (eqb N (fst z) (lit N 1 0) && eqb N (snd z) (lit N 0 0))%bool = false).
  { destruct (eqb N (snd z) (lit N 0 0)) eqn:Q; [|apply andb_false_r]. destruct (E eq_refl) as (_ & -> & _). reflexivity. }
  assert (E2 : (eqb N (fst z) (lit N (-1) 0) && eqb N (snd z) (lit N 0 0))%bool = false).
  { destruct (eqb N (snd z) (lit N 0 0)) eqn:Q; [|apply andb_false_r]. destruct (E eq_refl) as (_ & _ & ->). reflexivity. }
  assert (n = 2 \/ n = 3 \/ n = 4 \/ n = 5 \/ n = 6) as K by lia.
  destruct K as [->|[->|[->|[->| ->]]]]; destruct d; cbn [Li]; rewrite A, B, C, D, E0, E1, E2; reflexivity.
Qed.
End D.
