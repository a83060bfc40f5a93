(** * Covering the argument intervals of the Clausen cores with pieces on which the error evaluator runs *)
From Coq Require Import ZArith Reals Bool Lia Lra Psatz List.
From Coquelicot Require Import Rcomplements.
From Interval Require Import Tactic.
From Flocq Require Import Core Relative IEEE754.BinarySingleNaN.
From Verif Require Import Num NumR NumB NumB_facts Proof_Float Libm Ferr FerrB.
Import ListNotations.
Local Open Scope R_scope.

(** ln, in hundredths, with the error of the library *)
Definition lg (prec l h : Z) : bnd := let l' := (l * SH / 100)%Z in let h' := (h * SH / 100 + 1)%Z in Bnd l' h' (4 * rup prec (Z.max (Z.abs l') (Z.abs h'))).
(** an exact argument, in units of 2^-40 *)
Definition xv (l h : Z) : bnd := Bnd (l * 2 ^ 100) (h * 2 ^ 100) 0.
Definition pN0 : list (Z * Z * Z * Z) := Eval cbv in
  [ (0, 2 ^ 10, -1170000, -2079); (2 ^ 10, 2 ^ 30, -2080, -693); (2 ^ 30, 2 ^ 36, -694, -277); (2 ^ 36, 2 ^ 37, -278, -207);
    (2 ^ 37, 2 ^ 38, -208, -138); (2 ^ 38, 2 ^ 39, -139, -69); (2 ^ 39, 3 * 2 ^ 38, -70, -28); (3 * 2 ^ 38, 2 ^ 40, -29, 0);
    (2 ^ 40, 5 * 2 ^ 38, 0, 23); (5 * 2 ^ 38, 6 * 2 ^ 38, 22, 41); (6 * 2 ^ 38, 15708 * 2 ^ 40 / 10000, 40, 46) ]%Z.
Definition pN (prec : Z) : list (list bnd) := map (fun '(a, b, l, h) => [xv a b; lg prec l h]) pN0.
Definition grid (lo step : Z) (n : nat) : list (list bnd) := map (fun i => [xv (lo + step * Z.of_nat i) (lo + step * (Z.of_nat i + 1))]) (seq 0 n).

Definition s40 : R := IZR (2 ^ 40).
Lemma sc40 : sc = s40 * IZR (2 ^ 100).
Proof. unfold sc, s40. rewrite <- mult_IZR. apply IZR_eq. reflexivity. Qed.
Lemma xv_rng x l h : IZR l <= x * s40 <= IZR h -> IZR (lo (xv l h)) <= x * sc <= IZR (hi (xv l h)).
Proof.
  intros H. unfold xv. cbn [lo hi]. rewrite (mult_IZR l), (mult_IZR h), sc40. assert (0 < IZR (2 ^ 100)) by (apply IZR_lt; reflexivity). nra.
Qed.
Lemma lg_rng prec v l h : IZR l <= v * 100 <= IZR h -> IZR (lo (lg prec l h)) <= v * sc <= IZR (hi (lg prec l h)).
Proof.
  intros H. unfold lg. cbv zeta. cbn [lo hi]. pose proof (floor_q (l * SH) 100 ltac:(lia)) as [A _]. pose proof (floor_q (h * SH) 100 ltac:(lia)) as [_ B].
  rewrite (mult_IZR l SH) in A. rewrite (mult_IZR h SH) in B. fold sc in A, B. pose proof sc_pos. split; [eapply Rle_trans; [exact A|]|eapply Rle_trans; [|exact B]]; nra.
Qed.
Lemma grid_cover lo step n x : (0 < step)%Z -> (0 < n)%nat -> IZR lo <= x * s40 <= IZR (lo + step * Z.of_nat n) ->
  exists l h, In [xv l h] (grid lo step n) /\ IZR l <= x * s40 <= IZR h.
Proof.
  intros Hs Hn. induction n as [|n IH]; [lia|]. intros [H1 H2].
  destruct (Rle_dec (x * s40) (IZR (lo + step * Z.of_nat n))) as [Q|Q].
  - destruct n as [|n].
    + exists (lo + step * Z.of_nat 0)%Z, (lo + step * (Z.of_nat 0 + 1))%Z. split; [left; reflexivity|]. split; [eapply Rle_trans; [|exact H1]; apply IZR_le; lia|].
      eapply Rle_trans; [exact H2|]. apply IZR_le. lia.
    + destruct IH as (l & h & I & B); [lia|split; assumption|]. exists l, h. split; [|exact B]. unfold grid in *. rewrite seq_S, map_app. apply in_or_app. left. exact I.
  - exists (lo + step * Z.of_nat n)%Z, (lo + step * (Z.of_nat n + 1))%Z. split; [unfold grid; rewrite seq_S, map_app; apply in_or_app; right; left; reflexivity|].
    split; [lra|]. eapply Rle_trans; [exact H2|]. apply IZR_le. lia.
Qed.

Section G.
Variables prec emax : Z.
Context (Hp : Prec_gt_0 prec) (He : Prec_lt_emax prec emax).
Hypothesis prec1 : (1 < prec)%Z.
Hypothesis em : (128 <= emax)%Z.
Hypothesis em2 : (142 <= emax + prec)%Z.
Hypothesis em3 : (emax + prec <= 16600)%Z.
Notation fl := (binary_float prec emax).
Notation emin := (3 - emax - prec)%Z.
Variable L : libm prec emax.
Hypothesis HL : libm_ok L.
Notation N := (NumB prec emax Hp He L).

Lemma ln_min (x : fl) : is_finite x = true -> 0 < B2R x -> -11700 <= ln (B2R x).
Proof.
  intros Fx H. assert (G : bpow radix2 emin <= B2R x).
  { destruct x as [| | |s m e B]; try discriminate; [cbn in H; lra|]. cbn [B2R] in H |- *. destruct s; [exfalso; pose proof (F2R_lt_0 radix2 (Float radix2 (Zneg m) e) ltac:(reflexivity)); cbn in H, H0; lra|].
    cbn [cond_Zopp]. pose proof (andb_prop _ _ B) as [B1 B2]. apply Zeq_bool_eq in B1. unfold SpecFloat.fexp, SpecFloat.emin in B1. unfold F2R. cbn [Fnum Fexp].
    apply Rle_trans with (1 * bpow radix2 e); [rewrite Rmult_1_l; apply bpow_le; lia|]. apply Rmult_le_compat_r; [apply bpow_ge_0|apply IZR_le; lia]. }
  apply Rle_trans with (ln (bpow radix2 emin)); [|apply ln_le; [apply bpow_gt_0|exact G]].
  rewrite bpow_powerRZ, powerRZ_Rpower by (cbn; lra). unfold Rpower. rewrite ln_exp.
  assert (A : IZR (-16600) <= IZR emin) by (apply IZR_le; lia). assert (B : 0 < ln 2 < 7 / 10) by (split; interval). change (IZR radix2) with 2. destruct (Rle_dec 0 (IZR emin)); nra.
Qed.
Lemma ln_brk a b x : 0 < a -> a <= x <= b -> ln a <= ln x <= ln b.
Proof. intros H [H1 H2]. split; apply ln_le; lra. Qed.
Lemma pN_cover (x : fl) : is_finite x = true -> 0 < B2R x <= 15707999 / 10000000 ->
  exists a b l h, In (a, b, l, h) pN0 /\ IZR a <= B2R x * s40 <= IZR b /\ IZR l <= ln (B2R x) * 100 <= IZR h.
Proof.
  intros Fx Hx. pose proof (ln_min x Fx ltac:(lra)) as LM. set (r := B2R x) in *. unfold s40, pN0.
  assert (B : forall a b l h, 0 < a -> a <= r <= b -> IZR l / 100 <= ln a -> ln b <= IZR h / 100 -> IZR l <= ln r * 100 <= IZR h).
  { intros a b l h A H H1 H2. pose proof (ln_brk a b r A H). lra. }
  destruct (Rle_dec r (/ 2 ^ 30)) as [Q|Q].
  { exists 0%Z, 1024%Z, (-1170000)%Z, (-2079)%Z. split; [cbn; tauto|]. split; [lra|]. split; [lra|].
    assert (ln r <= ln (/ 2 ^ 30)) by (apply ln_le; lra). assert (ln (/ 2 ^ 30) <= -2079 / 100) by interval. lra. }
  destruct (Rle_dec r (/ 2 ^ 10)) as [Q1|Q1].
  { exists 1024%Z, 1073741824%Z, (-2080)%Z, (-693)%Z. split; [cbn; tauto|]. split; [lra|]. apply (B (/ 2 ^ 30) (/ 2 ^ 10)); try lra; interval. }
  destruct (Rle_dec r (/ 2 ^ 4)) as [Q2|Q2].
  { exists 1073741824%Z, 68719476736%Z, (-694)%Z, (-277)%Z. split; [cbn; tauto|]. split; [lra|]. apply (B (/ 2 ^ 10) (/ 2 ^ 4)); try lra; interval. }
  destruct (Rle_dec r (/ 2 ^ 3)) as [Q3|Q3].
  { exists 68719476736%Z, 137438953472%Z, (-278)%Z, (-207)%Z. split; [cbn; tauto|]. split; [lra|]. apply (B (/ 2 ^ 4) (/ 2 ^ 3)); try lra; interval. }
  destruct (Rle_dec r (/ 2 ^ 2)) as [Q4|Q4].
  { exists 137438953472%Z, 274877906944%Z, (-208)%Z, (-138)%Z. split; [cbn; tauto|]. split; [lra|]. apply (B (/ 2 ^ 3) (/ 2 ^ 2)); try lra; interval. }
  destruct (Rle_dec r (/ 2)) as [Q5|Q5].
  { exists 274877906944%Z, 549755813888%Z, (-139)%Z, (-69)%Z. split; [cbn; tauto|]. split; [lra|]. apply (B (/ 2 ^ 2) (/ 2)); try lra; interval. }
  destruct (Rle_dec r (3 / 4)) as [Q6|Q6].
  { exists 549755813888%Z, 824633720832%Z, (-70)%Z, (-28)%Z. split; [cbn; tauto|]. split; [lra|]. apply (B (/ 2) (3 / 4)); try lra; interval. }
  destruct (Rle_dec r 1) as [Q7|Q7].
  { exists 824633720832%Z, 1099511627776%Z, (-29)%Z, 0%Z. split; [cbn; tauto|]. split; [lra|]. apply (B (3 / 4) 1); try lra; interval. }
  destruct (Rle_dec r (5 / 4)) as [Q8|Q8].
  { exists 1099511627776%Z, 1374389534720%Z, 0%Z, 23%Z. split; [cbn; tauto|]. split; [lra|]. apply (B 1 (5 / 4)); try lra; interval. }
  destruct (Rle_dec r (3 / 2)) as [Q9|Q9].
  { exists 1374389534720%Z, 1649267441664%Z, 22%Z, 41%Z. split; [cbn; tauto|]. split; [lra|]. apply (B (5 / 4) (3 / 2)); try lra; interval. }
  { exists 1649267441664%Z, 1727112864910%Z, 40%Z, 46%Z. split; [cbn; tauto|]. split; [lra|]. apply (B (3 / 2) (15708 / 10000)); try lra; interval. }
Qed.
(** a near branch: argument and its logarithm *)
Theorem near_check (e : ex) E ep v (x : fl) : check prec e (pN prec) E = true -> is_finite x = true -> 0 < B2R x <= 15707999 / 10000000 ->
  evalN (NumR ep) (fun i => Some (nth i [B2R x; ln (B2R x)] 0)) e = Some v ->
  is_finite (evalN N (fun i => nth i [x; nlog N x] (B754_zero false)) e) = true /\
  Rabs (B2R (evalN N (fun i => nth i [x; nlog N x] (B754_zero false)) e) - v) <= IZR E / sc.
Proof.
  intros C Fx Hx HV. apply evalN_R in HV. destruct (pN_cover x Fx Hx) as (a & b & l & h & I & R1 & R2).
  destruct (check_ok prec emax Hp He prec1 em em2 L e (pN prec) E [xv a b; lg prec l h] [B2R x; ln (B2R x)] [x; nlog N x] C) as [F G]; try reflexivity.
  - unfold pN. apply (in_map (fun '(a, b, l, h) => [xv a b; lg prec l h]) pN0 _ I).
  - intros [|[|i]] Hi; cbn [nth].
    + exact (rel_exact prec emax x _ _ Fx (xv_rng _ _ _ R1)).
    + exact (rel_close prec emax prec1 em2 _ _ _ _ (log_acc _ _ _ _ _ HL x Fx ltac:(lra)) (lg_rng prec _ _ _ R2)).
    + cbn in Hi. lia.
  - split; [exact F|]. rewrite HV in G. pose proof sc_pos. apply (Rmult_le_reg_r sc); [assumption|]. unfold Rdiv. rewrite Rmult_assoc, Rinv_l, Rmult_1_r by lra. exact G.
Qed.
(** a far branch: argument only, two grids *)
Theorem far_check (e : ex) E ep v (x : fl) l1 s1 n1 s2 n2 : check prec e (grid l1 s1 n1 ++ grid (l1 + s1 * Z.of_nat n1) s2 n2) E = true ->
  (0 < s1)%Z -> (0 < s2)%Z -> (0 < n1)%nat -> (0 < n2)%nat -> is_finite x = true -> IZR l1 <= B2R x * s40 <= IZR (l1 + s1 * Z.of_nat n1 + s2 * Z.of_nat n2) ->
  evalN (NumR ep) (fun i => Some (nth i [B2R x] 0)) e = Some v ->
  is_finite (evalN N (fun i => nth i [x] (B754_zero false)) e) = true /\
  Rabs (B2R (evalN N (fun i => nth i [x] (B754_zero false)) e) - v) <= IZR E / sc.
Proof.
  intros C S1 S2 N1 N2 Fx Hx HV. apply evalN_R in HV.
  assert (Cv : exists l h, In [xv l h] (grid l1 s1 n1 ++ grid (l1 + s1 * Z.of_nat n1) s2 n2) /\ IZR l <= B2R x * s40 <= IZR h).
  { destruct (Rle_dec (B2R x * s40) (IZR (l1 + s1 * Z.of_nat n1))) as [Q|Q].
    - destruct (grid_cover l1 s1 n1 (B2R x) S1 N1) as (l & h & I & B); [lra|]. exists l, h. split; [apply in_or_app; left; exact I|exact B].
    - destruct (grid_cover (l1 + s1 * Z.of_nat n1) s2 n2 (B2R x) S2 N2) as (l & h & I & B); [lra|]. exists l, h. split; [apply in_or_app; right; exact I|exact B]. }
  destruct Cv as (l & h & I & R1).
  destruct (check_ok prec emax Hp He prec1 em em2 L e _ E [xv l h] [B2R x] [x] C I) as [F G]; try reflexivity.
  - intros [|i] Hi; cbn [nth]; [|cbn in Hi; lia]. exact (rel_exact prec emax x _ _ Fx (xv_rng _ _ _ R1)).
  - split; [exact F|]. rewrite HV in G. pose proof sc_pos. apply (Rmult_le_reg_r sc); [assumption|]. unfold Rdiv. rewrite Rmult_assoc, Rinv_l, Rmult_1_r by lra. exact G.
Qed.
(** a constant *)
Theorem const_check (e : ex) E ep v : check prec e [[]] E = true -> evalN (NumR ep) (fun i => Some 0) e = Some v ->
  is_finite (evalN N (fun i => B754_zero false) e) = true /\ Rabs (B2R (evalN N (fun i => B754_zero false) e) - v) <= IZR E / sc.
Proof.
  intros C HV. apply evalN_R in HV. destruct (check_ok prec emax Hp He prec1 em em2 L e [[]] E [] [] [] C) as [F G]; try reflexivity; [left; reflexivity|intros i Hi; cbn in Hi; lia|].
  assert (A1 : forall e, evalN N (fun i => nth i [] (B754_zero false)) e = evalN N (fun i => B754_zero false) e) by (induction e0; cbn [evalN]; try congruence; destruct i; reflexivity).
  assert (A2 : forall e, evalR (fun i => nth i [] 0) e = evalR (fun i => 0) e) by (induction e0; cbn [evalR]; try congruence; destruct i; reflexivity).
  rewrite A1 in F, G. rewrite A2, HV in G. split; [exact F|]. pose proof sc_pos. apply (Rmult_le_reg_r sc); [assumption|]. unfold Rdiv. rewrite Rmult_assoc, Rinv_l, Rmult_1_r by lra. exact G.
Qed.
End G.

Lemma bpow_neg (p : positive) : bpow radix2 (Zneg p) = / IZR (2 ^ Zpos p).
Proof. change (Zneg p) with (Z.opp (Zpos p)). rewrite bpow_opp, <- (IZR_Zpower radix2) by lia. reflexivity. Qed.

Lemma tri_le (a b c e1 e2 e : R) : Rabs (a - b) <= e1 -> Rabs (b - c) <= e2 -> e1 + e2 <= e -> Rabs (a - c) <= e.
Proof. intros A B C. replace (a - c) with ((a - b) + (b - c)) by ring. eapply Rle_trans; [apply Rabs_triang|lra]. Qed.
