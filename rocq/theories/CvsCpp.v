(** * The C interface against the C++ one: laws of arithmetic used in the comparison *)
From Coq Require Import ZArith Reals List Bool Lra Lia Psatz.
From Coquelicot Require Import Coquelicot.
From Flocq Require Import Core IEEE754.BinarySingleNaN.
From Verif Require Import Num NumR NumB NumB_facts Spec Eval_R Model_LiR Model_Cl16 Model_C Proof_Float.
Import ListNotations.
Local Open Scope R_scope.

(** ** Horner: starting from 0 or from the top coefficient *)
Lemma hornerl_fold (N : num) x c : hornerl N x c = fold_left (fun p ci => add N (mul N p x) ci) (rev c) (lit N 0 0).
Proof.
  rewrite <- (fold_left_rev_right (fun a p => add N (mul N p x) a)). rewrite rev_involutive. induction c as [|a c IH]; [reflexivity|]. cbn [hornerl fold_right]. rewrite IH. reflexivity.
Qed.
Lemma hornerl_horner (N : num) x c t l : rev c = t :: l -> add N (mul N (lit N 0 0) x) t = t -> hornerl N x c = horner N x c.
Proof. intros E H. rewrite hornerl_fold. unfold horner. rewrite E. cbn [fold_left]. rewrite H. reflexivity. Qed.

Section F.
Variables prec emax : Z.
Variable Hp : Prec_gt_0 prec.
Variable He : Prec_lt_emax prec emax.
Hypothesis prec1 : (1 < prec)%Z.
Variable L : libm prec emax.
Notation fl := (binary_float prec emax).
Notation N := (NumB prec emax Hp He L).
Notation rnd := (round radix2 (SpecFloat.fexp prec emax) ZnearestE).
Notation "'litb' z" := (blit prec emax Hp He z 0) (at level 9).

Lemma lit_ok z : (Z.abs z <= 2)%Z -> B2R (litb z) = IZR z /\ is_finite (litb z) = true.
Proof. intros H. apply litZ_exact; [exact prec1|]. apply Z.le_trans with (1 := H). change 2%Z with (2 ^ 1)%Z at 1. apply Z.pow_le_mono_r; lia. Qed.
Lemma fmt1 k : (-1 <= k <= 1)%Z -> generic_format radix2 (SpecFloat.fexp prec emax) (bpow radix2 k).
Proof. intros H. apply generic_format_bpow. unfold SpecFloat.fexp, SpecFloat.emin. pose proof (Hp : (0 < prec)%Z). pose proof (He : (prec < emax)%Z). lia. Qed.
Lemma rnd_le1 r k : (-1 <= k <= 1)%Z -> Rabs r <= bpow radix2 k -> Rabs (rnd r) <= bpow radix2 k.
Proof. intros K H. apply abs_round_le_generic; [apply (fexp_correct prec emax Hp)|apply valid_rnd_N|apply fmt1; exact K|exact H]. Qed.
Lemma bk_lt k : (-1 <= k <= 1)%Z -> bpow radix2 k < bpow radix2 emax.
Proof. intros K. apply bpow_lt. pose proof (He : (prec < emax)%Z). lia. Qed.
Lemma rnd_mono a b : a <= b -> rnd a <= rnd b.
Proof. intros H. apply round_le; [apply (fexp_correct prec emax Hp)|apply valid_rnd_N|exact H]. Qed.
Lemma rnd_int z : (Z.abs z <= 2)%Z -> rnd (IZR z) = IZR z.
Proof. intros H. apply round_generic; [apply valid_rnd_N|]. apply (format_IZR prec emax Hp He prec1). apply Z.le_trans with (1 := H). change 2%Z with (2 ^ 1)%Z at 1. apply Z.pow_le_mono_r; lia. Qed.

(** 0*x + t = t for finite x and finite nonzero t, exactly *)
Lemma zero_start (x t : fl) : is_finite x = true -> is_finite_strict t = true -> add N (mul N (lit N 0 0) x) t = t.
Proof.
  intros F T. destruct (lit_ok 0 ltac:(lia)) as [Z0 FZ]. change (lit N 0 0) with (litb 0%Z).
  assert (E : exists s, litb 0%Z = B754_zero s).
  { destruct (litb 0%Z) as [s|s| |s m e B] eqn:D; try discriminate FZ; [eauto|]. exfalso. cbn in Z0. destruct s; [assert (F2R (Float radix2 (Zneg m) e) < 0) by (apply F2R_lt_0; reflexivity)|assert (0 < F2R (Float radix2 (Zpos m) e)) by (apply F2R_gt_0; reflexivity)]; cbn in *; lra. }
  destruct E as [s E]. rewrite E. destruct x as [sx|sx| |sx m e B]; try discriminate F; destruct t as [st|st| |st m' e' B']; try discriminate T; reflexivity.
Qed.
Lemma half_ok : B2R (blit prec emax Hp He 5 (-1)) = / 2 /\ is_finite (blit prec emax Hp He 5 (-1)) = true.
Proof.
assert (E : litR 5 (-1) = / 2) by (unfold litR; cbn; lra).
    assert (G : rnd (/ 2) = / 2). { change (/ 2) with (bpow radix2 (-1)). apply round_generic; [apply valid_rnd_N|]. apply fmt1. lia. }
    destruct (blit_correct prec emax Hp He prec1 5 (-1)) as [B C].
    - rewrite E, G. rewrite Rabs_pos_eq by lra. change (/ 2) with (bpow radix2 (-1)). apply bk_lt. lia.
    - rewrite B, E, G. auto. 
Qed.
(** l/2 = 0.5*l exactly *)
Lemma half_law (x : fl) : mul N (lit N 5 (-1)) x = div N x (lit N 2 0).
Proof.
  destruct (lit_ok 2 ltac:(lia)) as [V2 F2]. change (lit N 2 0) with (litb 2%Z) in *.
  pose proof half_ok as H5.
  destruct H5 as [V5 F5]. change (lit N 5 (-1)) with (blit prec emax Hp He 5 (-1)).
  set (h := blit prec emax Hp He 5 (-1)) in *. set (d := litb 2%Z) in *.
  assert (SH : Bsign h = false /\ exists m e B, h = B754_finite false m e B).
  { clearbody h. destruct h as [s|s| |[] m e B]; try discriminate F5; cbn in V5; try lra.
    - exfalso. assert (F2R (Float radix2 (Zneg m) e) < 0) by (apply F2R_lt_0; reflexivity). cbn [SpecFloat.cond_Zopp] in V5. cbn in V5. change (Z.neg m) with (- Z.pos m)%Z in *. lra.
    - split; [reflexivity|eauto]. }
  assert (SD : Bsign d = false /\ exists m e B, d = B754_finite false m e B).
  { clearbody d. destruct d as [s|s| |[] m e B]; try discriminate F2; cbn in V2; try lra.
    - exfalso. assert (F2R (Float radix2 (Zneg m) e) < 0) by (apply F2R_lt_0; reflexivity). change (Z.neg m) with (- Z.pos m)%Z in *. lra.
    - split; [reflexivity|eauto]. }
  destruct SH as [SH (mh & eh & Bh & EH)], SD as [SD (md & ed & Bd & ED)].
  change (mul N h x) with (Bmult mode_NE h x). change (div N x d) with (Bdiv mode_NE x d).
  destruct x as [s|s| |s m e B].
  - rewrite EH, ED. destruct s; reflexivity.
  - rewrite EH, ED. destruct s; reflexivity.
  - rewrite EH, ED. reflexivity.
  - set (x := B754_finite s m e B) in *.
    assert (RX : Rabs (rnd (B2R x / 2)) < bpow radix2 emax).
    { apply Rle_lt_trans with (Rabs (B2R x)); [|apply abs_B2R_lt_emax].
      apply abs_round_le_generic; [apply (fexp_correct prec emax Hp)|apply valid_rnd_N|apply generic_format_abs, generic_format_B2R|].
      unfold Rdiv. rewrite Rabs_mult, (Rabs_pos_eq (/ 2)) by lra. pose proof (Rabs_pos (B2R x)). lra. }
    pose proof (Bmult_correct prec emax Hp He mode_NE h x) as K1. pose proof (Bdiv_correct prec emax Hp He mode_NE x d ltac:(rewrite V2; lra)) as K2.
    cbn [round_mode] in K1, K2. rewrite V5 in K1. rewrite V2 in K2. replace (/ 2 * B2R x) with (B2R x / 2) in K1 by (unfold Rdiv; ring).
    change (IZR 2) with 2 in K2. rewrite Rlt_bool_true in K1 by exact RX. rewrite Rlt_bool_true in K2 by exact RX.
    destruct K1 as (A1 & B1 & C1), K2 as (A2 & B2 & C2). cbn [is_finite] in B1, B2. rewrite F5 in B1. change (is_finite x) with true in *. cbn [andb] in B1.
    apply B2R_Bsign_inj; [exact B1|exact B2|congruence|]. rewrite C1, C2.
    + rewrite SH, SD. apply xorb_comm.
    + destruct (Bdiv mode_NE x d); try discriminate B2; reflexivity.
    + destruct (Bmult mode_NE h x); try discriminate B1; reflexivity.
Qed.

(** ** the argument of the rational approximant of Li2 is always finite *)
Definition fin1 (y : fl) := is_finite y = true /\ Rabs (B2R y) <= 1.
Lemma b0 : bpow radix2 0 = 1. Proof. reflexivity. Qed.
Lemma ltb_R (x y : fl) : is_finite x = true -> is_finite y = true -> Bltb x y = Rlt_bool (B2R x) (B2R y).
Proof. intros; apply Bltb_correct; assumption. Qed.
Lemma fin1_div (a b : fl) : fin1 a -> is_finite b = true -> 1 <= Rabs (B2R b) -> fin1 (div N a b).
Proof.
  intros [A A1] B B1. assert (NZ : B2R b <> 0) by (intros E; rewrite E, Rabs_R0 in B1; lra).
  assert (H : Rabs (rnd (B2R a / B2R b)) <= 1).
  { apply (rnd_le1 _ 0); [lia|]. rewrite b0. unfold Rdiv. rewrite Rabs_mult, Rabs_inv.
    apply Rle_trans with (1 * / Rabs (B2R b)).
    - apply Rmult_le_compat_r; [|exact A1]. left. apply Rinv_0_lt_compat. lra.
    - rewrite Rmult_1_l. rewrite <- Rinv_1. apply Rinv_le_contravar; lra. }
  destruct (Bdiv_ok prec emax Hp He a b A NZ) as [V F].
  - apply Rle_lt_trans with (1 := H). rewrite <- b0. apply bk_lt. lia.
  - split; [exact F|]. change (div N a b) with (Bdiv mode_NE a b). rewrite V. exact H.
Qed.
Lemma sub_val (a b : fl) : is_finite a = true -> is_finite b = true -> Rabs (B2R a - B2R b) <= 2 ->
  is_finite (sub N a b) = true /\ B2R (sub N a b) = rnd (B2R a - B2R b).
Proof.
  intros A B H. destruct (Bminus_ok prec emax Hp He a b A B) as [V F].
  - apply Rle_lt_trans with (bpow radix2 1); [apply rnd_le1; [lia|exact H]|apply bk_lt; lia].
  - split; assumption.
Qed.
Lemma quarter : fin1 (lit N 25 (-2)).
Proof.
  assert (E : litR 25 (-2) = / 4) by (unfold litR; cbn; lra). change (lit N 25 (-2)) with (blit prec emax Hp He 25 (-2)).
  assert (G : Rabs (rnd (/ 4)) <= 1). { apply (rnd_le1 _ 0); [lia|]. rewrite b0, Rabs_pos_eq; lra. }
  destruct (blit_correct prec emax Hp He prec1 25 (-2)) as [B C].
  - rewrite E. apply Rle_lt_trans with (1 := G). rewrite <- b0. apply bk_lt. lia.
  - split; [exact C|]. rewrite B, E. exact G.
Qed.
Lemma one1 : is_finite (lit N 1 0) = true /\ B2R (lit N 1 0) = 1.
Proof. destruct (lit_ok 1 ltac:(lia)); auto. Qed.
Lemma fin1_fin z : fin1 z -> is_finite (sub N z (lit N 25 (-2))) = true.
Proof. intros [A B]. destruct quarter as [C D]. apply sub_val; try assumption. apply Rabs_le_between in B. apply Rabs_le_between in D. apply Rabs_le. lra. Qed.
Lemma ltb_true_lit (x : fl) z : (Z.abs z <= 2)%Z -> ltb N x (lit N z 0) = true -> x = B754_infinity true \/ is_finite x = true /\ B2R x < IZR z.
Proof.
  intros K H. destruct (lit_ok z K) as [V F]. change (Bltb x (litb z) = true) in H.
  destruct (is_finite x) eqn:FX.
  - right. split; [reflexivity|]. rewrite ltb_R, V in H by assumption. revert H. case Rlt_bool_spec; [auto|discriminate].
  - left. destruct x as [s|[]| |s m e B]; try discriminate FX; [reflexivity| |]; destruct (litb z); discriminate H || destruct s; discriminate H.
Qed.
Lemma ltb_false_lit (x : fl) z : (Z.abs z <= 2)%Z -> ltb N x (lit N z 0) = false -> x = B754_infinity false \/ x = B754_nan \/ is_finite x = true /\ IZR z <= B2R x.
Proof.
  intros K H. destruct (lit_ok z K) as [V F]. change (Bltb x (litb z) = false) in H.
  destruct (is_finite x) eqn:FX.
  - right. right. split; [reflexivity|]. rewrite ltb_R, V in H by assumption. revert H. case Rlt_bool_spec; [discriminate|auto].
  - destruct x as [s|[]| |s m e B]; try discriminate FX; auto. destruct (litb z); try discriminate F; discriminate H.
Qed.
Lemma fin1_0 (y : fl) s : y = B754_zero s -> fin1 y.
Proof. intros ->. split; [reflexivity|]. cbn. rewrite Rabs_R0. lra. Qed.
Lemma one_div_inf s : fin1 (div N (lit N 1 0) (B754_infinity s)).
Proof.
  destruct one1 as [F V]. change (div N (lit N 1 0) (B754_infinity s)) with (Bdiv mode_NE (lit N 1 0) (B754_infinity s)).
  destruct (lit N 1 0 : fl) as [t|t| |t m e B]; try discriminate F; eapply fin1_0; reflexivity.
Qed.
Lemma one_minus_ninf : sub N (lit N 1 0) (B754_infinity true) = B754_infinity false.
Proof.
  destruct one1 as [F V]. change (sub N (lit N 1 0) (B754_infinity true)) with (Bminus mode_NE (lit N 1 0) (B754_infinity true)).
  destruct (lit N 1 0 : fl) as [t|t| |t m e B]; try discriminate F; reflexivity.
Qed.

(** the value of y in each branch of Li2 *)
Lemma y_lt_m1 x : ltb N x (lit N (-1) 0) = true -> fin1 (div N (lit N 1 0) (sub N (lit N 1 0) x)).
Proof.
  intros H. destruct one1 as [F V]. apply ltb_true_lit in H; [|lia]. destruct H as [->|[FX H]].
  - rewrite one_minus_ninf. apply one_div_inf.
  - destruct (Bool.bool_dec (is_finite (sub N (lit N 1 0) x)) true) as [G|G].
    + apply fin1_div; [split; [exact F|rewrite V, Rabs_R1; lra]|exact G|].
      pose proof (Bminus_correct prec emax Hp He mode_NE (lit N 1 0) x F FX) as K. cbn [round_mode] in K. rewrite V in K.
      change (Bminus mode_NE (lit N 1 0) x) with (sub N (lit N 1 0) x) in K.
      destruct (Rlt_bool _ _) in K.
      * destruct K as (K & _). rewrite K. assert (rnd 1 <= rnd (1 - B2R x)) by (apply rnd_mono; lra). rewrite (rnd_int 1) in H0 by lia.
        rewrite Rabs_pos_eq; lra.
      * destruct K as (K & _). exfalso. revert G K. generalize (sub N (lit N 1 0) x). intros f. cbn. destruct f; cbn; discriminate.
    + apply not_true_is_false in G. revert G. pose proof (Bminus_correct prec emax Hp He mode_NE (lit N 1 0) x F FX) as K.
      change (Bminus mode_NE (lit N 1 0) x) with (sub N (lit N 1 0) x) in K. destruct (Rlt_bool _ _) in K.
      * destruct K as (_ & K & _). rewrite K. discriminate.
      * destruct K as (K & _). intros G. revert G K. generalize (sub N (lit N 1 0) x). intros f. destruct f as [t|t| |t m e B]; cbn [is_finite B2SF]; try discriminate; intros _ K.
        apply one_div_inf.
Qed.
Lemma y_neg x : ltb N x (lit N (-1) 0) = false -> ltb N x (lit N 0 0) = true -> fin1 (div N x (sub N x (lit N 1 0))).
Proof.
  intros H1 H2. destruct one1 as [F V]. apply ltb_true_lit in H2; [|lia]. apply ltb_false_lit in H1; [|lia].
  destruct H2 as [->|[FX H2]]. { destruct H1 as [H1|[H1|[H1 _]]]; discriminate H1. }
  destruct H1 as [->|[->|[_ H1]]]; try discriminate FX.
  destruct (sub_val x (lit N 1 0) FX F) as [G W]. { rewrite V. apply Rabs_le. lra. }
  apply fin1_div; [split; [exact FX|apply Rabs_le; lra]|exact G|]. rewrite W, V.
  assert (rnd (B2R x - 1) <= rnd (-1)) by (apply rnd_mono; lra). rewrite (rnd_int (-1)) in H by lia. rewrite Rabs_left1; lra.
Qed.
Lemma y_mid x : ltb N x (lit N 0 0) = false -> ltb N x (lit N 1 0) = true -> fin1 x /\ fin1 (sub N (lit N 1 0) x).
Proof.
  intros H1 H2. destruct one1 as [F V]. apply ltb_true_lit in H2; [|lia]. apply ltb_false_lit in H1; [|lia].
  destruct H2 as [->|[FX H2]]. { destruct H1 as [H1|[H1|[H1 _]]]; discriminate H1. }
  destruct H1 as [->|[->|[_ H1]]]; try discriminate FX. split; [split; [exact FX|apply Rabs_le; lra]|].
  destruct (sub_val (lit N 1 0) x F FX) as [G W]. { rewrite V. apply Rabs_le. lra. }
  split; [exact G|]. rewrite W, V. apply (rnd_le1 _ 0); [lia|]. rewrite b0. apply Rabs_le. lra.
Qed.
Lemma y_12 x : ltb N x (lit N 1 0) = false -> ltb N x (lit N 2 0) = true -> fin1 (sub N (lit N 1 0) (div N (lit N 1 0) x)).
Proof.
  intros H1 H2. destruct one1 as [F V]. apply ltb_true_lit in H2; [|lia]. apply ltb_false_lit in H1; [|lia].
  destruct H2 as [->|[FX H2]]. { destruct H1 as [H1|[H1|[H1 _]]]; discriminate H1. }
  destruct H1 as [->|[->|[_ H1]]]; try discriminate FX.
  assert (D : Rabs (rnd (1 / B2R x)) <= 1 /\ 0 <= rnd (1 / B2R x)).
  { split.
    - apply (rnd_le1 _ 0); [lia|]. rewrite b0. unfold Rdiv. rewrite Rmult_1_l, Rabs_inv, Rabs_pos_eq by lra. rewrite <- Rinv_1. apply Rinv_le_contravar; lra.
    - rewrite <- (rnd_int 0) by lia. apply rnd_mono. unfold Rdiv. rewrite Rmult_1_l. left. apply Rinv_0_lt_compat. lra. }
  destruct (Bdiv_ok prec emax Hp He (lit N 1 0) x F ltac:(lra)) as [A B].
  { rewrite V. apply Rle_lt_trans with (1 := proj1 D). rewrite <- b0. apply bk_lt. lia. }
  rewrite V in A. change (Bdiv mode_NE (lit N 1 0) x) with (div N (lit N 1 0) x) in *. rewrite <- A in D. clear A. destruct D as [D1 D2]. apply Rabs_le_between in D1.
  destruct (sub_val (lit N 1 0) (div N (lit N 1 0) x) F B) as [G W]. { rewrite V. apply Rabs_le. lra. }
  split; [exact G|]. rewrite W, V. apply (rnd_le1 _ 0); [lia|]. rewrite b0. apply Rabs_le. lra.
Qed.
Lemma y_2 x : ltb N x (lit N 2 0) = false -> fin1 (div N (lit N 1 0) x) \/ x = B754_nan.
Proof.
  intros H. destruct one1 as [F V]. apply ltb_false_lit in H; [|lia]. destruct H as [->|[->|[FX H]]]; [left; apply one_div_inf|auto|].
  left. apply fin1_div; [split; [exact F|rewrite V, Rabs_R1; lra]|exact FX|]. rewrite Rabs_pos_eq; lra.
Qed.
Lemma horner_fin x c t l : rev c = t :: l -> is_finite_strict t = true -> is_finite x = true -> hornerl N x c = horner N x c.
Proof. intros E T F. eapply hornerl_horner; [exact E|]. apply zero_start; assumption. Qed.
Lemma mul_nan (a : fl) : mul N a B754_nan = B754_nan. Proof. destruct a as [|[]| |[]]; reflexivity. Qed.
Lemma add_nan (a : fl) : add N B754_nan a = B754_nan. Proof. destruct a; reflexivity. Qed.
Lemma horner_nan c t u l : rev c = t :: u :: l -> horner N B754_nan c = B754_nan.
Proof.
  intros E. unfold horner. rewrite E. cbn [fold_left]. rewrite mul_nan, add_nan. clear E. induction l as [|a l IH]; [reflexivity|]. cbn [fold_left]. rewrite mul_nan, add_nan. exact IH.
Qed.
Lemma hornerl_nan c t l : rev c = t :: l -> hornerl N B754_nan c = B754_nan.
Proof.
  intros E. rewrite hornerl_fold, E. cbn [fold_left]. rewrite mul_nan, add_nan. clear E. induction l as [|a l IH]; [reflexivity|]. cbn [fold_left]. rewrite mul_nan, add_nan. exact IH.
Qed.
Lemma div_nan_r (a : fl) : div N a B754_nan = B754_nan. Proof. destruct a; reflexivity. Qed.
End F.
