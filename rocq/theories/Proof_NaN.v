(** * NaN propagation *)
From Coq Require Import ZArith List Bool Lia.
From Verif Require Import Num Outcome Model_Tables Model_Zeta Model_Cl16 Model_SlPoly Model_Cl Model_LiR Model_LiC Model_Li Proof_Int Laws_nan.
Import ListNotations.
Local Open Scope Z_scope.

(** ** Index bounds of Cl for 7 <= n <= 9, any arithmetic *)
Section Idx.
Variable N : num.

Lemma ncal_loop_defined cnt k n x2 xn sum : 1 <= k -> exists v, ncal_loop N cnt k n x2 xn sum = Val v.
Proof.
  revert k xn sum. induction cnt as [|c IH]; intros k xn sum Hk; [cbn; eauto|].
  cbn [ncal_loop]. destruct (Z.leb_spec k (Z.of_nat (length CL_B))); [|eauto].
  destruct (tref_ok N CL_B (k - 1) ltac:(lia)) as (d & _ & ->). cbn [bind].
  destruct eqb; [eauto|]. apply IH. lia.
Qed.
Lemma ncal_defined n x : exists v, ncal N n x = Val v.
Proof.
  unfold ncal. destruct (ncal_loop_defined (S (length CL_B)) 1 n (mul N x x) (mul N (npow N x (ofZ N (n + 1))) (mul N x x)) (lit N 0 0) ltac:(lia)) as [v E].
  rewrite E. cbn. eauto.
Qed.
Lemma zref_defined {A} (l : list A) i : 0 <= i < Z.of_nat (length l) -> exists a, zref l i = Val a.
Proof. intros H. destruct (zref_ok l i H) as (a & E & _). eauto. Qed.
Lemma binomial_row n : 0 <= n <= 7 -> exists row, zref binomial n = Val row /\ length row = 8%nat.
Proof.
  intros H. assert (n = 0 \/ n = 1 \/ n = 2 \/ n = 3 \/ n = 4 \/ n = 5 \/ n = 6 \/ n = 7) as C by lia.
  destruct C as [->|[->|[->|[->|[->|[->|[->| ->]]]]]]]; eexists; split; reflexivity.
Qed.
Lemma nsum_loop_defined cnt i n x sum xn : 2 <= n <= 9 -> 0 <= i -> exists v, nsum_loop N cnt i n x sum xn = Val v.
Proof.
  intros Hn. revert i sum xn. induction cnt as [|c IH]; intros i sum xn Hi; [cbn; eauto|].
  cbn [nsum_loop]. destruct (Z.leb_spec i (n - 3)); [|eauto].
  destruct (binomial_row (n - 2) ltac:(lia)) as (row & -> & Hr). cbn [bind].
  destruct (zref_defined row i) as [b ->]; [lia|]. cbn [bind].
  destruct (ncal_defined (n - 2 - i) x) as [v ->]. cbn [bind]. apply IH. lia.
Qed.
Lemma nsum_defined n x : 2 <= n <= 9 -> exists v, nsum N n x = Val v.
Proof.
  intros H. unfold nsum. destruct (nsum_loop_defined (Z.to_nat n) 0 n x (lit N 0 0) (lit N 1 0) H ltac:(lia)) as [v ->]. cbn [bind].
  destruct (ncal_defined 0 x) as [w ->]. cbn. eauto.
Qed.
Lemma pcal_loop_defined cnt i n x2 sum : n <= 9 -> 3 <= i -> exists v, pcal_loop N cnt i n x2 sum = Val v.
Proof.
  intros Hn. revert i sum. induction cnt as [|c IH]; intros i sum Hi; [cbn; eauto|].
  cbn [pcal_loop]. destruct (Z.leb_spec i n); [|eauto].
  destruct (tref_ok N CL_ZETA (i - 2)) as (d & _ & ->). { change (Z.of_nat (length CL_ZETA)) with 8. lia. } cbn [bind].
  destruct (zref_defined (inverse_factorial N) (n - i)) as [f ->]. { change (Z.of_nat (length (inverse_factorial N))) with 9. lia. }
  cbn [bind]. apply IH. lia.
Qed.
Lemma pcal_defined n x : n <= 9 -> exists v, pcal N n x = Val v.
Proof.
  intros H. unfold pcal. destruct (pcal_loop_defined (Z.to_nat n) 3 n (mul N x x) (lit N 0 0) H ltac:(lia)) as [v ->]. cbn. eauto.
Qed.
End Idx.

Section Nan.
Variable N : num.
Hypothesis H : nan_laws N.

Lemma Li2_f_nan : Li2_f N (nan N) = nan N.
Proof. unfold Li2_f. nan_prove H. Qed.
Lemma Li2_d_nan : Li2_d N (nan N) = nan N.
Proof. unfold Li2_d. nan_prove H. Qed.
Lemma Li2_l_nan : Li2_l N (nan N) = nan N.
Proof. unfold Li2_l. nan_prove H. Qed.
Lemma Li2_q_nan : Li2_q N (nan N) = nan N.
Proof. unfold Li2_q. nan_prove H. Qed.
Lemma Li3_d_nan : Li3_d N (nan N) = nan N.
Proof. unfold Li3_d. nan_prove H. Qed.
Lemma Li4_d_nan : Li4_d N (nan N) = nan N.
Proof. unfold Li4_d. nan_prove H. Qed.
Lemma Cl1_d_nan : Cl1_d N (nan N) = nan N.
Proof. unfold Cl1_d. nan_prove H. Qed.
Lemma Cl2_d_nan : Cl2_d N (nan N) = nan N.
Proof. unfold Cl2_d. nan_prove H. Qed.
Lemma Cl3_d_nan : Cl3_d N (nan N) = nan N.
Proof. unfold Cl3_d. nan_prove H. Qed.
Lemma Cl4_d_nan : Cl4_d N (nan N) = nan N.
Proof. unfold Cl4_d. nan_prove H. Qed.
Lemma Cl5_d_nan : Cl5_d N (nan N) = nan N.
Proof. unfold Cl5_d. nan_prove H. Qed.
Lemma Cl6_d_nan : Cl6_d N (nan N) = nan N.
Proof. unfold Cl6_d. nan_prove H. Qed.
Lemma Cl2_l_nan : Cl2_l N (nan N) = nan N.
Proof. unfold Cl2_l. nan_prove H. Qed.
Lemma Cl3_l_nan : Cl3_l N (nan N) = nan N.
Proof. unfold Cl3_l. nan_prove H. Qed.
Lemma Cl4_l_nan : Cl4_l N (nan N) = nan N.
Proof. unfold Cl4_l. nan_prove H. Qed.
Lemma Cl5_l_nan : Cl5_l N (nan N) = nan N.
Proof. unfold Cl5_l. nan_prove H. Qed.
Lemma Cl6_l_nan : Cl6_l N (nan N) = nan N.
Proof. unfold Cl6_l. nan_prove H. Qed.

Lemma flip_nan : range_reduce_flip N (nan N) = (lit N 1 0, nan N).
Proof. unfold range_reduce_flip. nan_simpl H. reflexivity. Qed.
Lemma noflip_nan : range_reduce_noflip N (nan N) = nan N.
Proof. unfold range_reduce_noflip. nan_simpl H. reflexivity. Qed.

Lemma sin_loop_nan cnt k n co a b : sin_series_loop N cnt k n co a b (nan N) = nan N.
Proof. revert k a b. induction cnt as [|c IH]; intros k a b; [reflexivity|]. cbn [sin_series_loop]. nan_simpl H. apply IH. Qed.
Lemma cos_loop_nan cnt k n co a b : cos_series_loop N cnt k n co a b (nan N) = nan N.
Proof. revert k a b. induction cnt as [|c IH]; intros k a b; [reflexivity|]. cbn [cos_series_loop]. nan_simpl H. apply IH. Qed.

(** [series_kmax n = Val k]: the number of terms, computed from n alone, is representable *)
Theorem Cl_nan n : (10 <= n -> exists k, series_kmax N n = Val k) -> Cl N n (nan N) = Val (nan N).
Proof.
  intros K. unfold Cl. destruct (Z.ltb_spec n 1); [reflexivity|].
  destruct (Z.eqb_spec n 1). { rewrite Cl1_d_nan; reflexivity. }
  destruct (Z.eqb_spec n 2). { rewrite Cl2_d_nan; reflexivity. }
  destruct (Z.eqb_spec n 3). { rewrite Cl3_d_nan; reflexivity. }
  destruct (Z.eqb_spec n 4). { rewrite Cl4_d_nan; reflexivity. }
  destruct (Z.eqb_spec n 5). { rewrite Cl5_d_nan; reflexivity. }
  destruct (Z.eqb_spec n 6). { rewrite Cl6_d_nan; reflexivity. }
  replace (Cl_range_reduce N n (nan N)) with (lit N 1 0, nan N)
    by (unfold Cl_range_reduce; rewrite flip_nan, noflip_nan; destruct is_even; reflexivity).
  nan_simpl H. rewrite !andb_false_r.
  unfold N_THRESH. destruct (Z.leb_spec n 9).
  - destruct (zref_defined (inverse_factorial N) (n - 1)) as [f1 ->]. { change (Z.of_nat (length (inverse_factorial N))) with 9. lia. }
    cbn [bind]. destruct (pcal_defined N n (nan N) ltac:(lia)) as [pc ->]. cbn [bind].
    destruct (zref_defined (inverse_factorial N) (n - 2)) as [f2 ->]. { change (Z.of_nat (length (inverse_factorial N))) with 9. lia. }
    cbn [bind]. destruct (nsum_defined N n (nan N) ltac:(lia)) as [ns ->]. cbn [bind].
    nan_simpl H. reflexivity.
  - destruct (K ltac:(lia)) as [k Hk].
    unfold cl_series, sin_series, cos_series. rewrite Hk. cbn [bind]. nan_simpl H.
    rewrite sin_loop_nan, cos_loop_nan. destruct is_even; cbn [bind]; nan_simpl H; reflexivity.
Qed.

Local Ltac nan_sl H := cbv beta delta [Sl_poly_1 Sl_poly_2 Sl_poly_3 Sl_poly_4 Sl_poly_5 Sl_poly_6 Sl_poly_7 Sl_poly_8 Sl_poly_9
  Sl_poly_10 Sl_poly_11 Sl_poly_12 Sl_poly_13 Sl_poly_14 Sl_poly_15 Sl_poly_16 Sl_poly_17 Sl_poly_18 Sl_poly_19 Sl_poly_20
  Sl_poly_21 Sl_poly_22 Sl_poly_23 Sl_poly_24 Sl_poly_25]; nan_prove H.
Lemma Sl_poly_nan n f : Sl_poly N n = Some f -> f (lit N 1 0) (nan N) = nan N.
Proof.
  unfold Sl_poly. generalize (Z.to_nat (n - 1)). intros i Hi.
  do 25 (destruct i as [|i]; [injection Hi as <-;
    nan_sl H|]).
  destruct i; discriminate Hi.
Qed.
Lemma Sl_poly_range n : 1 <= n -> (Sl_poly N n = None <-> 25 < n).
Proof.
  intros Hn. unfold Sl_poly. rewrite nth_error_None. cbn [length]. lia.
Qed.
Theorem Sl_nan n : (26 <= n -> exists k, series_kmax N n = Val k) -> Sl N n (nan N) = Val (nan N).
Proof.
  intros K. unfold Sl. destruct (Z.ltb_spec n 1); [reflexivity|].
  replace (Sl_range_reduce N n (nan N)) with (lit N 1 0, nan N)
    by (unfold Sl_range_reduce; rewrite flip_nan, noflip_nan; destruct is_even; reflexivity).
  nan_simpl H. rewrite andb_false_r.
  destruct (Sl_poly N n) as [f|] eqn:E.
  - rewrite (Sl_poly_nan n f E). reflexivity.
  - apply Sl_poly_range in E; [|lia]. destruct (K ltac:(lia)) as [k Hk].
    unfold sl_series, sin_series, cos_series. rewrite Hk. cbn [bind]. nan_simpl H.
    rewrite sin_loop_nan, cos_loop_nan. destruct is_even; cbn [bind]; nan_simpl H; reflexivity.
Qed.
Theorem Li_nan d fuel n a b : isnan N a = true \/ isnan N b = true -> Li N d fuel n (a, b) = Val (nan N, nan N).
Proof.
  intros C. destruct d; cbn [Li fst snd];
  (replace (isnan N a || isnan N b)%bool with true by (destruct C as [-> | ->]; [reflexivity | rewrite orb_true_r; reflexivity]); reflexivity).
Qed.
End Nan.
