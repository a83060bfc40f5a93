(** * Rounding errors of straight-line code, by a verified evaluator

    [beval] computes, for an expression built from variables, decimal literals
    and + - * /, an enclosure of its exact real value and a bound for the
    difference between that value and the value computed in IEEE arithmetic
    (any precision, round to nearest even), in fixed point with 140 binary
    digits.  [beval_ok] is its correctness.  Division is only accepted when
    both the exact and the computed denominator stay away from zero. *)
From Coq Require Import ZArith Reals Bool Lia Lra Psatz List.
From Coquelicot Require Import Rcomplements.
From Flocq Require Import Core Relative IEEE754.BinarySingleNaN.
From Verif Require Import Num NumR NumB NumB_facts Proof_Float Libm.
Import ListNotations.
Local Open Scope R_scope.

Inductive ex : Type :=
| V (i : nat) | K (m e : Z) | EAdd (a b : ex) | ESub (a b : ex) | EMul (a b : ex) | EDiv (a b : ex) | EOpp (a : ex).
(** the syntax as an instance of the interface: applying a branch-free function of the model to it yields its expression *)
Definition NumE : num := {|
  car := ex;
  lit := K; ofZ := fun z => K z 0;
  add := EAdd; sub := ESub; mul := EMul; div := EDiv; opp := EOpp;
  ltb := fun _ _ => false; leb := fun _ _ => false; eqb := fun _ _ => false;
  isnan := fun _ => false; isinf := fun _ => false;
  nan := K 0 0; inf := K 0 0; eps := K 0 0;
  nlog := fun a => a; nlog1p := fun a => a; nsin := fun a => a; ncos := fun a => a; nexp := fun a => a;
  nsqrt := fun a => a; nfmod := fun a _ => a; npow := fun a _ => a; nhypot := fun a _ => a; natan2 := fun a _ => a;
  natan := fun a => a; nexp2 := fun a => a; ntgamma := fun a => a; ceil_to_Z := fun _ => None
|}.
Fixpoint evalN (N : num) (env : nat -> N) (e : ex) : N :=
  match e with
  | V i => env i | K m k => lit N m k
  | EAdd a b => add N (evalN N env a) (evalN N env b) | ESub a b => sub N (evalN N env a) (evalN N env b)
  | EMul a b => mul N (evalN N env a) (evalN N env b) | EDiv a b => div N (evalN N env a) (evalN N env b)
  | EOpp a => opp N (evalN N env a)
  end.
Fixpoint evalR (env : nat -> R) (e : ex) : R :=
  match e with
  | V i => env i | K m k => litR m k
  | EAdd a b => evalR env a + evalR env b | ESub a b => evalR env a - evalR env b
  | EMul a b => evalR env a * evalR env b | EDiv a b => evalR env a / evalR env b
  | EOpp a => - evalR env a
  end.

(** ** fixed point *)
Definition SH : Z := 2 ^ 140.
Definition sc : R := IZR SH.
Lemma sc_bpow : sc = bpow radix2 140. Proof. symmetry. apply (IZR_Zpower radix2 140). lia. Qed.
Lemma sc_pos : 0 < sc. Proof. apply (IZR_lt 0). reflexivity. Qed.
Record bnd : Type := Bnd { lo : Z; hi : Z; er : Z }.
Definition mag (b : bnd) : Z := Z.max (Z.abs (lo b)) (Z.abs (hi b)).
Definition LIM : Z := 2 ^ 240.

Lemma floor_mul a : IZR (a / SH) <= IZR a / sc.
Proof.
  pose proof sc_pos. apply (Rmult_le_reg_r sc); [assumption|]. unfold Rdiv. rewrite Rmult_assoc, Rinv_l, Rmult_1_r by lra. unfold sc. rewrite <- mult_IZR. apply IZR_le.
  rewrite Z.mul_comm. apply Z.mul_div_le. reflexivity.
Qed.
Lemma ceil_mul a : IZR a / sc <= IZR (a / SH + 1).
Proof.
  pose proof sc_pos. apply (Rmult_le_reg_r sc); [assumption|]. unfold Rdiv. rewrite Rmult_assoc, Rinv_l, Rmult_1_r by lra. unfold sc. rewrite <- mult_IZR. apply IZR_le.
  pose proof (Z.mul_succ_div_gt a SH ltac:(reflexivity)). lia.
Qed.
Lemma floor_q a b : (b <> 0)%Z -> IZR (a / b) <= IZR a / IZR b <= IZR (a / b + 1).
Proof.
  intros Hb. pose proof (Z.div_mod a b Hb) as E. assert (Q : IZR a / IZR b = IZR (a / b) + IZR (a mod b) / IZR b).
  { rewrite E at 1. rewrite plus_IZR, mult_IZR. field. apply not_0_IZR. exact Hb. }
  assert (F : 0 <= IZR (a mod b) / IZR b <= 1).
  { destruct (Z_lt_le_dec b 0) as [N|P].
    - pose proof (Z.mod_neg_bound a b N) as [M1 M2]. apply IZR_lt in M1. apply IZR_le in M2. apply IZR_lt in N.
      replace (IZR (a mod b) / IZR b) with (- IZR (a mod b) / - IZR b) by (field; lra). split; [apply Rdiv_le_0_compat; lra|].
      apply (Rmult_le_reg_r (- IZR b)); [lra|]. unfold Rdiv. rewrite Rmult_assoc, Rinv_l by lra. lra.
    - assert (P' : (0 < b)%Z) by lia. pose proof (Z.mod_pos_bound a b P') as [M1 M2]. apply IZR_le in M1. apply IZR_lt in M2. apply IZR_lt in P'.
      split; [apply Rdiv_le_0_compat; lra|]. apply (Rmult_le_reg_r (IZR b)); [lra|]. unfold Rdiv. rewrite Rmult_assoc, Rinv_l by lra. lra. }
  rewrite plus_IZR. lra.
Qed.
Lemma inv_neg a b : a <= b -> b < 0 -> / b <= / a.
Proof. intros H1 H2. apply Ropp_le_cancel. rewrite <- !Rinv_opp. apply Rinv_le_contravar; lra. Qed.
(** ** interval product *)
Lemma seg_max l h a b : l <= a <= h -> a * b <= Rmax (l * b) (h * b).
Proof. intros H. destruct (Rle_dec 0 b); [eapply Rle_trans; [|apply Rmax_r]; nra|eapply Rle_trans; [|apply Rmax_l]; nra]. Qed.
Lemma seg_min l h a b : l <= a <= h -> Rmin (l * b) (h * b) <= a * b.
Proof. intros H. destruct (Rle_dec 0 b); [eapply Rle_trans; [apply Rmin_l|]; nra|eapply Rle_trans; [apply Rmin_r|]; nra]. Qed.
Lemma prod_iv l1 h1 l2 h2 a b m M : l1 <= a <= h1 -> l2 <= b <= h2 ->
  m <= l1 * l2 <= M -> m <= l1 * h2 <= M -> m <= h1 * l2 <= M -> m <= h1 * h2 <= M -> m <= a * b <= M.
Proof.
  intros A B X1 X2 X3 X4.
  assert (P : forall c, m <= c * l2 <= M -> m <= c * h2 <= M -> m <= c * b <= M).
  { intros c C1 C2. pose proof (seg_max l2 h2 b c B) as U. pose proof (seg_min l2 h2 b c B) as W.
    rewrite (Rmult_comm b c), (Rmult_comm l2 c), (Rmult_comm h2 c) in U, W.
    split; [eapply Rle_trans; [|exact W]; apply Rmin_glb; lra|eapply Rle_trans; [exact U|]; apply Rmax_lub; lra]. }
  pose proof (P l1 X1 X2) as Y1. pose proof (P h1 X3 X4) as Y2. pose proof (seg_max l1 h1 a b A) as U. pose proof (seg_min l1 h1 a b A) as W.
  split; [eapply Rle_trans; [|exact W]; apply Rmin_glb; lra|eapply Rle_trans; [exact U|]; apply Rmax_lub; lra].
Qed.
Definition min4 (a b c d : Z) : Z := Z.min (Z.min a b) (Z.min c d).
Definition max4 (a b c d : Z) : Z := Z.max (Z.max a b) (Z.max c d).

Section E.
Variables prec emax : Z.
Context (Hp : Prec_gt_0 prec) (He : Prec_lt_emax prec emax).
Hypothesis prec1 : (1 < prec)%Z.
Hypothesis prec2 : (prec <= 140)%Z.
Hypothesis em : (128 <= emax)%Z.
Hypothesis em2 : (142 <= emax + prec)%Z.
Variable L : libm prec emax.
Notation fl := (binary_float prec emax).
Notation emin := (3 - emax - prec)%Z.
Notation fexp := (SpecFloat.fexp prec emax).
Notation rnd := (round radix2 fexp ZnearestE).
Notation N := (NumB prec emax Hp He L).

(** the float [f] approximates the real [v] as described by [b] *)
Definition rel (b : bnd) (v : R) (f : fl) : Prop :=
  is_finite f = true /\ IZR (lo b) <= v * sc <= IZR (hi b) /\ Rabs (B2R f - v) * sc <= IZR (er b).
Definition rup (M : Z) : Z := (M / 2 ^ prec + 2)%Z.
Lemma tiny_sc : bpow radix2 (emin - 1) * sc <= 1.
Proof.
  rewrite sc_bpow. rewrite <- bpow_plus. change 1 with (bpow radix2 0). apply bpow_le. lia.
Qed.
Lemma rup_ok M r : Rabs r * sc <= IZR M -> Rabs (rnd r - r) * sc <= IZR (rup M).
Proof.
  intros H. pose proof sc_pos as S0. pose proof tiny_sc as T. pose proof (rnd_err prec emax Hp r) as E.
  assert (B : bpow radix2 (- prec) = / IZR (2 ^ prec)) by (rewrite bpow_opp; f_equal; symmetry; apply (IZR_Zpower radix2); lia).
  assert (P2 : (0 < 2 ^ prec)%Z) by (apply Z.pow_pos_nonneg; lia). assert (P2R : 0 < IZR (2 ^ prec)) by (apply IZR_lt; exact P2).
  destruct (floor_q M (2 ^ prec) ltac:(lia)) as [_ F]. unfold rup. rewrite plus_IZR. rewrite plus_IZR in F.
  apply Rle_trans with ((bpow radix2 (- prec) * Rabs r + bpow radix2 (emin - 1)) * sc); [apply Rmult_le_compat_r; lra|].
  rewrite Rmult_plus_distr_r, Rmult_assoc, B. assert (/ IZR (2 ^ prec) * (Rabs r * sc) <= IZR M / IZR (2 ^ prec)).
  { unfold Rdiv. rewrite Rmult_comm. apply Rmult_le_compat_r; [left; apply Rinv_0_lt_compat; exact P2R|exact H]. }
  lra.
Qed.
Lemma lim_ok M r : Rabs r * sc <= IZR M -> (M <=? LIM)%Z = true -> Rabs (rnd r) < bpow radix2 emax.
Proof.
  intros H1 H2. apply Z.leb_le, IZR_le in H2. apply (rnd_small prec emax Hp He prec1). pose proof sc_pos.
  apply Rle_trans with (bpow radix2 100); [|apply bpow_le; lia]. apply (Rmult_le_reg_r sc); [assumption|]. eapply Rle_trans; [exact H1|]. eapply Rle_trans; [exact H2|].
  rewrite sc_bpow. rewrite <- bpow_plus. rewrite <- (IZR_Zpower radix2) by lia. apply IZR_le. vm_compute. discriminate.
Qed.
Lemma mag_ok b v : IZR (lo b) <= v * sc <= IZR (hi b) -> Rabs v * sc <= IZR (mag b).
Proof.
  intros [H1 H2]. pose proof sc_pos. rewrite <- (Rabs_pos_eq sc) at 1 by lra. rewrite <- Rabs_mult. unfold mag. apply Rabs_le. rewrite <- opp_IZR. split.
  - eapply Rle_trans; [|exact H1]. apply IZR_le. lia.
  - eapply Rle_trans; [exact H2|]. apply IZR_le. lia.
Qed.
Lemma abs_sc r : Rabs r * sc = Rabs (r * sc).
Proof. pose proof sc_pos. rewrite Rabs_mult, (Rabs_pos_eq sc) by lra. reflexivity. Qed.
(** one rounded operation with exact result r near v *)
Lemma round_step b v r e (f : fl) : IZR (lo b) <= v * sc <= IZR (hi b) -> Rabs (r - v) * sc <= IZR e -> er b = (e + rup (mag b + e))%Z ->
  (mag b + e <=? LIM)%Z = true -> (Rabs (rnd r) < bpow radix2 emax -> B2R f = rnd r /\ is_finite f = true) -> rel b v f.
Proof.
  intros H1 H2 E3 H4 H5. pose proof sc_pos.
  assert (M : Rabs r * sc <= IZR (mag b + e)).
  { rewrite plus_IZR. pose proof (mag_ok b v H1). assert (Rabs r <= Rabs v + Rabs (r - v)) by (replace r with (v + (r - v)) at 1 by ring; apply Rabs_triang). nra. }
  destruct (H5 (lim_ok _ _ M H4)) as [B F]. split; [exact F|]. split; [exact H1|]. rewrite B, E3, plus_IZR. pose proof (rup_ok _ _ M) as U.
  assert (T : Rabs (rnd r - v) <= Rabs (r - v) + Rabs (rnd r - r)) by (replace (rnd r - v) with ((r - v) + (rnd r - r)) by ring; apply Rabs_triang). nra.
Qed.
Definition fin_b (l h e : Z) : option bnd :=
  let M := (Z.max (Z.abs l) (Z.abs h) + e)%Z in if (M <=? LIM)%Z then Some (Bnd l h (e + rup M)) else None.
Lemma fin_ok l h e b v r (f : fl) : fin_b l h e = Some b -> IZR l <= v * sc <= IZR h -> Rabs (r - v) * sc <= IZR e ->
  (Rabs (rnd r) < bpow radix2 emax -> B2R f = rnd r /\ is_finite f = true) -> rel b v f.
Proof.
  unfold fin_b. destruct (_ <=? LIM)%Z eqn:E; [|discriminate]. intros H. injection H as <-. intros H1 H2 H3.
  apply (round_step _ v r e f); [exact H1|exact H2|reflexivity|exact E|exact H3].
Qed.
Definition b_add (x y : bnd) : option bnd := fin_b (lo x + lo y) (hi x + hi y) (er x + er y).
Definition b_sub (x y : bnd) : option bnd := fin_b (lo x - hi y) (hi x - lo y) (er x + er y).
Definition b_mul (x y : bnd) : option bnd :=
  let a := (lo x * lo y)%Z in let b := (lo x * hi y)%Z in let c := (hi x * lo y)%Z in let d := (hi x * hi y)%Z in
  fin_b (min4 a b c d / SH) (max4 a b c d / SH + 1) ((mag x * er y + mag y * er x + er x * er y) / SH + 1).
Definition b_div (x y : bnd) : option bnd :=
  let m := Z.min (Z.abs (lo y)) (Z.abs (hi y)) in
  if ((0 <? lo y) || (hi y <? 0))%Z%bool then if (er y <? m)%Z then
    let l1 := (lo x * SH)%Z in let h1 := (hi x * SH)%Z in
    let a := (l1 / lo y)%Z in let b := (l1 / hi y)%Z in let c := (h1 / lo y)%Z in let d := (h1 / hi y)%Z in
    fin_b (min4 a b c d) (max4 a b c d + 1) ((er x * SH) / (m - er y) + (mag x * er y * SH) / (m * (m - er y)) + 2)
  else None else None.
Definition b_opp (x : bnd) : bnd := Bnd (- hi x) (- lo x) (er x).
(** m 10^e 2^140 rounded down *)
Definition lit_lo (m e : Z) : Z := if (0 <=? e)%Z then (m * 10 ^ e * SH)%Z else (m * SH / 10 ^ (- e))%Z.
Definition b_lit (m e : Z) : option bnd := fin_b (lit_lo m e) (lit_lo m e + 1) 0.
Lemma er_sum a b x y : Rabs a * sc <= x -> Rabs b * sc <= y -> Rabs (a + b) * sc <= x + y.
Proof. intros H1 H2. pose proof sc_pos. pose proof (Rabs_triang a b). nra. Qed.
Lemma b_add_ok x y b v w (f g : fl) : b_add x y = Some b -> rel x v f -> rel y w g -> rel b (v + w) (add N f g).
Proof.
  intros E (F1 & I1 & R1) (F2 & I2 & R2). apply (fin_ok _ _ _ _ _ (B2R f + B2R g) _ E).
  - rewrite !plus_IZR. lra.
  - replace (B2R f + B2R g - (v + w)) with ((B2R f - v) + (B2R g - w)) by ring. rewrite plus_IZR. apply er_sum; assumption.
  - intros G. exact (Bplus_ok prec emax Hp He f g F1 F2 G).
Qed.
Lemma b_sub_ok x y b v w (f g : fl) : b_sub x y = Some b -> rel x v f -> rel y w g -> rel b (v - w) (sub N f g).
Proof.
  intros E (F1 & I1 & R1) (F2 & I2 & R2). apply (fin_ok _ _ _ _ _ (B2R f - B2R g) _ E).
  - rewrite !minus_IZR. lra.
  - replace (B2R f - B2R g - (v - w)) with ((B2R f - v) + - (B2R g - w)) by ring. rewrite plus_IZR. apply er_sum; [assumption|rewrite Rabs_Ropp; assumption].
  - intros G. exact (Bminus_ok prec emax Hp He f g F1 F2 G).
Qed.
Lemma b_opp_ok x v (f : fl) : rel x v f -> rel (b_opp x) (- v) (opp N f).
Proof.
  intros (F1 & I1 & R1). cbn [opp NumB]. split; [rewrite is_finite_Bopp; exact F1|]. rewrite B2R_Bopp. cbn [b_opp lo hi er]. rewrite !opp_IZR. split; [lra|].
  replace (- B2R f - - v) with (- (B2R f - v)) by ring. rewrite Rabs_Ropp. exact R1.
Qed.
Lemma lit_lo_ok m e : IZR (lit_lo m e) <= litR m e * sc <= IZR (lit_lo m e + 1).
Proof.
  unfold lit_lo, litR. destruct (0 <=? e)%Z eqn:E.
  - rewrite plus_IZR, (mult_IZR (m * 10 ^ e) SH). unfold sc. lra.
  - apply Z.leb_gt in E. assert (P : (0 < 10 ^ (- e))%Z) by (apply Z.pow_pos_nonneg; lia). pose proof (floor_q (m * SH) (10 ^ (- e)) ltac:(lia)) as F. rewrite (mult_IZR m SH) in F. fold sc in F.
    replace (IZR m / IZR (10 ^ (- e)) * sc) with (IZR m * sc / IZR (10 ^ (- e))) by (unfold Rdiv; ring). exact F.
Qed.
Lemma b_lit_ok m e b : b_lit m e = Some b -> rel b (litR m e) (lit N m e).
Proof.
  intros E. apply (fin_ok _ _ _ _ _ (litR m e) _ E).
  - apply lit_lo_ok.
  - rewrite Rminus_eq_0, Rabs_R0. lra.
  - intros G. destruct (blit_correct prec emax Hp He prec1 m e G) as [B C]. split; [exact B|exact C].
Qed.
Lemma mm4 a b c d : (min4 a b c d <= a /\ min4 a b c d <= b /\ min4 a b c d <= c /\ min4 a b c d <= d /\ a <= max4 a b c d /\ b <= max4 a b c d /\ c <= max4 a b c d /\ d <= max4 a b c d)%Z.
Proof. unfold min4, max4. lia. Qed.
Lemma er_nonneg b v (f : fl) : rel b v f -> 0 <= IZR (er b).
Proof. intros (_ & _ & R). pose proof sc_pos. eapply Rle_trans; [|exact R]. apply Rmult_le_pos; [apply Rabs_pos|lra]. Qed.
Lemma b_mul_ok x y b v w (f g : fl) : b_mul x y = Some b -> rel x v f -> rel y w g -> rel b (v * w) (mul N f g).
Proof.
  intros E R1 R2. destruct R1 as (F1 & I1 & R1), R2 as (F2 & I2 & R2). pose proof sc_pos as S0. unfold b_mul in E. cbv zeta in E.
  pose proof (mag_ok x v I1) as M1. pose proof (mag_ok y w I2) as M2.
  apply (fin_ok _ _ _ _ _ (B2R f * B2R g) _ E).
  - destruct (mm4 (lo x * lo y) (lo x * hi y) (hi x * lo y) (hi x * hi y)) as (A1 & A2 & A3 & A4 & B1 & B2 & B3 & B4).
    set (mn := min4 _ _ _ _) in *. set (mx := max4 _ _ _ _) in *. apply IZR_le in A1, A2, A3, A4, B1, B2, B3, B4. rewrite mult_IZR in A1, A2, A3, A4, B1, B2, B3, B4.
    pose proof (floor_mul mn) as U. pose proof (ceil_mul mx) as W.
    assert (P : IZR mn <= (v * sc) * (w * sc) <= IZR mx).
    { refine (prod_iv (IZR (lo x)) (IZR (hi x)) (IZR (lo y)) (IZR (hi y)) _ _ _ _ I1 I2 _ _ _ _); split; assumption. }
    assert (Q : IZR mn / sc <= v * w * sc <= IZR mx / sc).
    { replace (v * w * sc) with ((v * sc) * (w * sc) / sc) by (field; lra). split; apply Rmult_le_compat_r; try (left; apply Rinv_0_lt_compat; exact S0); lra. }
    lra.
  - eapply Rle_trans; [|apply ceil_mul]. apply (Rmult_le_reg_r sc); [exact S0|]. unfold Rdiv. rewrite (Rmult_assoc _ (/ sc) sc), Rinv_l, Rmult_1_r by lra.
    rewrite !plus_IZR, !mult_IZR.
    assert (T : Rabs (B2R f * B2R g - v * w) <= Rabs v * Rabs (B2R g - w) + Rabs w * Rabs (B2R f - v) + Rabs (B2R f - v) * Rabs (B2R g - w)).
    { rewrite <- !Rabs_mult. replace (B2R f * B2R g - v * w) with (v * (B2R g - w) + w * (B2R f - v) + (B2R f - v) * (B2R g - w)) by ring.
      eapply Rle_trans; [apply Rabs_triang|]. apply Rplus_le_compat_r. apply Rabs_triang. }
    set (av := Rabs v) in *. set (aw := Rabs w) in *. set (ef := Rabs (B2R f - v)) in *. set (eg := Rabs (B2R g - w)) in *.
    assert (P1 : 0 <= av * sc) by (apply Rmult_le_pos; [apply Rabs_pos|lra]). assert (P2 : 0 <= aw * sc) by (apply Rmult_le_pos; [apply Rabs_pos|lra]).
    assert (P3 : 0 <= ef * sc) by (apply Rmult_le_pos; [apply Rabs_pos|lra]). assert (P4 : 0 <= eg * sc) by (apply Rmult_le_pos; [apply Rabs_pos|lra]).
    apply Rle_trans with ((av * eg + aw * ef + ef * eg) * sc * sc); [apply Rmult_le_compat_r; [lra|apply Rmult_le_compat_r; lra]|].
    replace ((av * eg + aw * ef + ef * eg) * sc * sc) with ((av * sc) * (eg * sc) + (aw * sc) * (ef * sc) + (ef * sc) * (eg * sc)) by ring.
    repeat apply Rplus_le_compat; apply Rmult_le_compat; assumption.
  - intros G. exact (Bmult_ok prec emax Hp He f g F1 F2 G).
Qed.
Lemma b_div_ok x y b v w (f g : fl) : b_div x y = Some b -> rel x v f -> rel y w g -> w <> 0 /\ rel b (v / w) (div N f g).
Proof.
  intros E R1 R2. pose proof (er_nonneg _ _ _ R1) as N1. pose proof (er_nonneg _ _ _ R2) as N2. destruct R1 as (F1 & I1 & R1), R2 as (F2 & I2 & R2). pose proof sc_pos as S0. unfold b_div in E. cbv zeta in E.
  destruct ((0 <? lo y) || (hi y <? 0))%Z%bool eqn:E1; [|discriminate]. destruct (er y <? _)%Z eqn:E2; [|discriminate].
  pose proof (mag_ok x v I1) as M1. apply Z.ltb_lt in E2. set (m := Z.min _ _) in *. 
  assert (LH : (lo y <= hi y)%Z) by (apply le_IZR; lra).
  assert (LN : (lo y <> 0 /\ hi y <> 0)%Z) by (clear - E1 LH; apply orb_prop in E1; destruct E1 as [E1|E1]; apply Z.ltb_lt in E1; lia).
  assert (MW : IZR m <= Rabs w * sc).
  { rewrite abs_sc. apply orb_prop in E1. destruct E1 as [E1|E1]; apply Z.ltb_lt in E1.
    - rewrite Rabs_pos_eq by (apply IZR_lt in E1; lra). eapply Rle_trans; [|apply I2]. apply IZR_le. clear - E1 LH. lia.
    - rewrite Rabs_left by (apply IZR_lt in E1; lra). apply Rle_trans with (- IZR (hi y)); [|lra]. rewrite <- opp_IZR. apply IZR_le. clear - E1 LH. lia. }
  assert (EM : IZR (er y) < IZR m) by (apply IZR_lt; exact E2).
  assert (W0 : w <> 0) by (intros ->; rewrite Rabs_R0 in MW; lra). split; [exact W0|].
  assert (GW : IZR m - IZR (er y) <= Rabs (B2R g) * sc).
  { assert (Rabs w <= Rabs (B2R g) + Rabs (B2R g - w)) by (replace w with (B2R g + - (B2R g - w)) at 1 by ring; eapply Rle_trans; [apply Rabs_triang|rewrite Rabs_Ropp; lra]). nra. }
  assert (G0 : B2R g <> 0) by (intros Q; rewrite Q, Rabs_R0 in GW; lra).
  apply (fin_ok _ _ _ _ _ (B2R f / B2R g) _ E).
  - set (l1 := (lo x * SH)%Z) in *. set (h1 := (hi x * SH)%Z) in *.
    pose proof (floor_q l1 (lo y) (proj1 LN)) as Q1. pose proof (floor_q l1 (hi y) (proj2 LN)) as Q2. pose proof (floor_q h1 (lo y) (proj1 LN)) as Q3. pose proof (floor_q h1 (hi y) (proj2 LN)) as Q4.
    destruct (mm4 (l1 / lo y) (l1 / hi y) (h1 / lo y) (h1 / hi y)) as (A1 & A2 & A3 & A4 & B1 & B2 & B3 & B4).
    set (mn := min4 _ _ _ _) in *. set (mx := max4 _ _ _ _) in *. apply IZR_le in A1, A2, A3, A4, B1, B2, B3, B4.
    rewrite plus_IZR in Q1, Q2, Q3, Q4. rewrite plus_IZR.
    assert (IW : / IZR (hi y) <= / (w * sc) <= / IZR (lo y)).
    { apply orb_prop in E1. destruct E1 as [E1|E1]; apply Z.ltb_lt, IZR_lt in E1.
      - split; apply Rinv_le_contravar; lra.
      - split; apply inv_neg; lra. }
    assert (I1' : IZR l1 <= v * sc * sc <= IZR h1) by (unfold l1, h1; rewrite !mult_IZR; fold sc; split; apply Rmult_le_compat_r; lra).
    replace (v / w * sc) with ((v * sc * sc) * / (w * sc)) by (field; lra). unfold Rdiv in Q1, Q2, Q3, Q4.
    refine (prod_iv (IZR l1) (IZR h1) (/ IZR (hi y)) (/ IZR (lo y)) _ _ _ _ I1' IW _ _ _ _); lra.
  - assert (D : IZR (m - er y) = IZR m - IZR (er y)) by apply minus_IZR. assert (DP : (m - er y <> 0)%Z) by lia.
    assert (mP : (0 < m)%Z) by (apply lt_IZR; lra). assert (DP2 : (m * (m - er y) <> 0)%Z) by (apply Z.neq_mul_0; lia).
    pose proof (floor_q (er x * SH) (m - er y) DP) as [_ Q1]. pose proof (floor_q (mag x * er y * SH) (m * (m - er y)) DP2) as [_ Q2].
    rewrite (mult_IZR (er x) SH) in Q1. rewrite (mult_IZR (mag x * er y) SH), (mult_IZR (mag x) (er y)), (mult_IZR m (m - er y)) in Q2. fold sc in Q1, Q2. rewrite D in Q1, Q2. rewrite plus_IZR in Q1, Q2. rewrite !plus_IZR.
    set (ef := Rabs (B2R f - v)) in *. set (eg := Rabs (B2R g - w)) in *. set (ag := Rabs (B2R g)) in *. set (aw := Rabs w) in *. set (av := Rabs v) in *.
    assert (AG : 0 < ag) by (apply Rabs_pos_lt; exact G0). assert (AW : 0 < aw) by (apply Rabs_pos_lt; exact W0).
    assert (EF : 0 <= ef) by apply Rabs_pos. assert (EG : 0 <= eg) by apply Rabs_pos. assert (AV : 0 <= av) by apply Rabs_pos.
    assert (T : Rabs (B2R f / B2R g - v / w) <= ef / ag + av * eg / (aw * ag)).
    { replace (B2R f / B2R g - v / w) with ((B2R f - v) / B2R g + - (v * (B2R g - w) / (w * B2R g))) by (field; split; assumption).
      eapply Rle_trans; [apply Rabs_triang|]. rewrite Rabs_Ropp. unfold Rdiv. rewrite !Rabs_mult, !Rabs_inv, Rabs_mult. right. reflexivity. }
    assert (PM : 0 < IZR m) by (apply IZR_lt; exact mP).
    assert (T1 : ef / ag * sc <= IZR (er x) * sc / (IZR m - IZR (er y))).
    { replace (ef / ag * sc) with (ef * sc * sc * / (ag * sc)) by (field; lra). unfold Rdiv. apply Rmult_le_compat; [repeat apply Rmult_le_pos; lra|left; apply Rinv_0_lt_compat; nra|apply Rmult_le_compat_r; lra|apply Rinv_le_contravar; lra]. }
    assert (T2 : av * eg / (aw * ag) * sc <= IZR (mag x) * IZR (er y) * sc / (IZR m * (IZR m - IZR (er y)))).
    { replace (av * eg / (aw * ag) * sc) with ((av * sc) * (eg * sc) * sc * / ((aw * sc) * (ag * sc))) by (field; lra). unfold Rdiv.
      apply Rmult_le_compat; [repeat apply Rmult_le_pos; lra|left; apply Rinv_0_lt_compat; repeat apply Rmult_lt_0_compat; lra|apply Rmult_le_compat_r; [lra|apply Rmult_le_compat; try lra; apply Rmult_le_pos; lra]|].
      apply Rinv_le_contravar; [apply Rmult_lt_0_compat; lra|apply Rmult_le_compat; lra]. }
    apply Rle_trans with ((ef / ag + av * eg / (aw * ag)) * sc); [apply Rmult_le_compat_r; lra|]. rewrite Rmult_plus_distr_r. lra.
  - intros G. exact (Bdiv_ok prec emax Hp He f g F1 G0 G).
Qed.

(** ** expressions *)
Fixpoint beval (env : nat -> bnd) (e : ex) : option bnd :=
  match e with
  | V i => Some (env i)
  | K m k => b_lit m k
  | EAdd a b => match beval env a, beval env b with Some x, Some y => b_add x y | _, _ => None end
  | ESub a b => match beval env a, beval env b with Some x, Some y => b_sub x y | _, _ => None end
  | EMul a b => match beval env a, beval env b with Some x, Some y => b_mul x y | _, _ => None end
  | EDiv a b => match beval env a, beval env b with Some x, Some y => b_div x y | _, _ => None end
  | EOpp a => match beval env a with Some x => Some (b_opp x) | None => None end
  end.
Theorem beval_ok benv renv fenv e b : (forall i, rel (benv i) (renv i) (fenv i)) -> beval benv e = Some b -> rel b (evalR renv e) (evalN N fenv e).
Proof.
  intros H. revert b. induction e as [i|m k|a IHa c IHc|a IHa c IHc|a IHa c IHc|a IHa c IHc|a IHa]; intros b; cbn [beval evalR evalN].
  - intros E. injection E as <-. apply H.
  - apply b_lit_ok.
  - destruct (beval benv a) as [x|]; [|discriminate]. destruct (beval benv c) as [y|]; [|discriminate]. intros E. apply (b_add_ok x y b _ _ _ _ E); auto.
  - destruct (beval benv a) as [x|]; [|discriminate]. destruct (beval benv c) as [y|]; [|discriminate]. intros E. apply (b_sub_ok x y b _ _ _ _ E); auto.
  - destruct (beval benv a) as [x|]; [|discriminate]. destruct (beval benv c) as [y|]; [|discriminate]. intros E. apply (b_mul_ok x y b _ _ _ _ E); auto.
  - destruct (beval benv a) as [x|]; [|discriminate]. destruct (beval benv c) as [y|]; [|discriminate]. intros E. apply (b_div_ok x y b _ _ _ _ E); auto.
  - destruct (beval benv a) as [x|]; [|discriminate]. intros E. injection E as <-. apply b_opp_ok. auto.
Qed.
End E.
