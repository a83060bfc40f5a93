(** * The evaluator of Ferr.v on machine-word bignums *)
From Coq Require Import ZArith Reals Bool Lia Lra Psatz List.
From Bignums Require Import BigZ.
From Coquelicot Require Import Rcomplements.
From Flocq Require Import Core Relative IEEE754.BinarySingleNaN.
From Verif Require Import Num NumR NumB NumB_facts Proof_Float Libm Ferr.
Import ListNotations.
Local Open Scope R_scope.

Local Notation zz := BigZ.to_Z.
Local Notation oz := BigZ.of_Z.
Record bb : Type := BB { bl : bigZ; bh : bigZ; be : bigZ }.
Definition tob (b : bb) : bnd := Bnd (zz (bl b)) (zz (bh b)) (zz (be b)).
Definition ofb (b : bnd) : bb := BB (oz (lo b)) (oz (hi b)) (oz (er b)).
Lemma tob_ofb b : tob (ofb b) = b.
Proof. destruct b. unfold tob, ofb. cbn. rewrite !BigZ.spec_of_Z. reflexivity. Qed.
Definition BSH : bigZ := oz SH.
Definition B140 : bigZ := oz 140.
Lemma shr_ok a : zz (BigZ.shiftr a B140) = (zz a / SH)%Z.
Proof. rewrite BigZ.spec_shiftr. unfold B140. rewrite BigZ.spec_of_Z, Z.shiftr_div_pow2 by lia. reflexivity. Qed.
Definition BLIM : bigZ := oz LIM.
Definition bmag (b : bb) : bigZ := BigZ.max (BigZ.abs (bl b)) (BigZ.abs (bh b)).
Lemma bmag_ok b : zz (bmag b) = mag (tob b).
Proof. unfold bmag, mag, tob. cbn [lo hi]. rewrite BigZ.spec_max, !BigZ.spec_abs. reflexivity. Qed.

Section B.
Variable prec : Z.
Hypothesis prec0 : (0 <= prec)%Z.
Definition P2 : bigZ := oz prec.
Variable p2 : bigZ.
Hypothesis Hp2 : zz p2 = prec.
Definition brup (M : bigZ) : bigZ := BigZ.add (BigZ.shiftr M p2) BigZ.two.
Lemma brup_ok M : zz (brup M) = rup prec (zz M).
Proof. unfold brup, rup. rewrite BigZ.spec_add, BigZ.spec_shiftr, Hp2, Z.shiftr_div_pow2 by exact prec0. reflexivity. Qed.
Definition bfin (l h e : bigZ) : option bb :=
  let M := BigZ.add (BigZ.max (BigZ.abs l) (BigZ.abs h)) e in if BigZ.leb M BLIM then Some (BB l h (BigZ.add e (brup M))) else None.
Lemma bfin_ok l h e : option_map tob (bfin l h e) = fin_b prec (zz l) (zz h) (zz e).
Proof.
  unfold bfin, fin_b. cbv zeta. rewrite BigZ.spec_leb, BigZ.spec_add, BigZ.spec_max, !BigZ.spec_abs. unfold BLIM. rewrite BigZ.spec_of_Z.
  destruct (_ <=? LIM)%Z; [|reflexivity]. cbn [option_map]. unfold tob. cbn [bl bh be]. rewrite BigZ.spec_add, brup_ok, BigZ.spec_add, BigZ.spec_max, !BigZ.spec_abs. reflexivity.
Qed.
Definition bmin4 (a b c d : bigZ) : bigZ := BigZ.min (BigZ.min a b) (BigZ.min c d).
Definition bmax4 (a b c d : bigZ) : bigZ := BigZ.max (BigZ.max a b) (BigZ.max c d).
Lemma bmin4_ok a b c d : zz (bmin4 a b c d) = min4 (zz a) (zz b) (zz c) (zz d). Proof. unfold bmin4, min4. rewrite !BigZ.spec_min. reflexivity. Qed.
Lemma bmax4_ok a b c d : zz (bmax4 a b c d) = max4 (zz a) (zz b) (zz c) (zz d). Proof. unfold bmax4, max4. rewrite !BigZ.spec_max. reflexivity. Qed.
Definition bb_add (x y : bb) := bfin (BigZ.add (bl x) (bl y)) (BigZ.add (bh x) (bh y)) (BigZ.add (be x) (be y)).
Definition bb_sub (x y : bb) := bfin (BigZ.sub (bl x) (bh y)) (BigZ.sub (bh x) (bl y)) (BigZ.add (be x) (be y)).
Definition bb_mul (x y : bb) : option bb :=
  let a := BigZ.mul (bl x) (bl y) in let b := BigZ.mul (bl x) (bh y) in let c := BigZ.mul (bh x) (bl y) in let d := BigZ.mul (bh x) (bh y) in
  bfin (BigZ.shiftr (bmin4 a b c d) B140) (BigZ.add (BigZ.shiftr (bmax4 a b c d) B140) BigZ.one)
    (BigZ.add (BigZ.shiftr (BigZ.add (BigZ.add (BigZ.mul (bmag x) (be y)) (BigZ.mul (bmag y) (be x))) (BigZ.mul (be x) (be y))) B140) BigZ.one).
Definition bb_div (x y : bb) : option bb :=
  let m := BigZ.min (BigZ.abs (bl y)) (BigZ.abs (bh y)) in
  if BigZ.ltb BigZ.zero (bl y) || BigZ.ltb (bh y) BigZ.zero then if BigZ.ltb (be y) m then
    let l1 := BigZ.mul (bl x) BSH in let h1 := BigZ.mul (bh x) BSH in
    let a := BigZ.div l1 (bl y) in let b := BigZ.div l1 (bh y) in let c := BigZ.div h1 (bl y) in let d := BigZ.div h1 (bh y) in
    let g := BigZ.sub m (be y) in
    bfin (bmin4 a b c d) (BigZ.add (bmax4 a b c d) BigZ.one)
      (BigZ.add (BigZ.add (BigZ.div (BigZ.mul (be x) BSH) g) (BigZ.div (BigZ.mul (BigZ.mul (bmag x) (be y)) BSH) (BigZ.mul m g))) BigZ.two)
  else None else None.
Definition bb_opp (x : bb) : bb := BB (BigZ.opp (bh x)) (BigZ.opp (bl x)) (be x).
Lemma bb_add_ok x y : option_map tob (bb_add x y) = b_add prec (tob x) (tob y).
Proof. unfold bb_add, b_add. rewrite bfin_ok, !BigZ.spec_add. reflexivity. Qed.
Lemma bb_sub_ok x y : option_map tob (bb_sub x y) = b_sub prec (tob x) (tob y).
Proof. unfold bb_sub, b_sub. rewrite bfin_ok, !BigZ.spec_sub, BigZ.spec_add. reflexivity. Qed.
Lemma bb_mul_ok x y : option_map tob (bb_mul x y) = b_mul prec (tob x) (tob y).
Proof.
  unfold bb_mul, b_mul. cbv zeta. rewrite bfin_ok, !BigZ.spec_add, !shr_ok, bmin4_ok, bmax4_ok, !BigZ.spec_add, !BigZ.spec_mul, !bmag_ok. reflexivity.
Qed.
Lemma bb_div_ok x y : option_map tob (bb_div x y) = b_div prec (tob x) (tob y).
Proof.
  unfold bb_div, b_div. cbv zeta. rewrite !BigZ.spec_ltb, BigZ.spec_min, !BigZ.spec_abs. cbn [tob lo hi er]. change (zz BigZ.zero) with 0%Z.
  destruct ((0 <? _) || _)%Z%bool; [|reflexivity]. destruct (_ <? _)%Z; [|reflexivity].
  rewrite bfin_ok, !BigZ.spec_add, !BigZ.spec_div, bmin4_ok, bmax4_ok, !BigZ.spec_div, !BigZ.spec_mul, BigZ.spec_sub, BigZ.spec_min, !BigZ.spec_abs, !bmag_ok.
  unfold BSH. rewrite !BigZ.spec_of_Z. reflexivity.
Qed.
Lemma bb_opp_ok x : tob (bb_opp x) = b_opp (tob x).
Proof. unfold bb_opp, b_opp, tob. cbn. rewrite !BigZ.spec_opp. reflexivity. Qed.

End B.

(** ** straight-line programs: expressions with common subexpressions shared *)
Inductive ins : Type := IV (i : nat) | IK (m e : Z) (b : bb) | IAdd (i j : nat) | ISub (i j : nat) | IMul (i j : nat) | IDiv (i j : nat) | IOpp (i : nat).
Fixpoint ex_eqb (a b : ex) : bool :=
  match a, b with
  | V i, V j => Nat.eqb i j
  | K m e, K m' e' => Z.eqb m m' && Z.eqb e e'
  | EAdd a b, EAdd a' b' | ESub a b, ESub a' b' | EMul a b, EMul a' b' | EDiv a b, EDiv a' b' => ex_eqb a a' && ex_eqb b b'
  | EOpp a, EOpp a' => ex_eqb a a'
  | _, _ => false
  end.
Lemma ex_eqb_eq a : forall b, ex_eqb a b = true -> a = b.
Proof.
  induction a as [i|m k|a IHa c IHc|a IHa c IHc|a IHa c IHc|a IHa c IHc|a IHa]; intros [j|m' k'|a' c'|a' c'|a' c'|a' c'|a']; cbn [ex_eqb]; try discriminate;
    rewrite ?andb_true_iff, ?Z.eqb_eq, ?Nat.eqb_eq; intros H; try (destruct H as [H1 H2]); f_equal; auto.
Qed.
(** untrusted compiler; its output is decompiled and compared with the source *)
Fixpoint find (e : ex) (l : list ex) (k : nat) : option nat := match l with [] => None | a :: l' => if ex_eqb e a then Some k else find e l' (S k) end.
Definition push (st : list ins * list ex * nat) (i : nat -> ins) (e : ex) : list ins * list ex * nat * nat := let '(p, es, n) := st in (i n :: p, e :: es, S n, n).
(** operands are addressed relative to the top of the stack of results *)
Definition rl (n i : nat) : nat := (n - 1 - i)%nat.
Section C.
Variable prec : Z.
Fixpoint comp (st : list ins * list ex * nat) (e : ex) : list ins * list ex * nat * nat :=
  let '(p, es, n) := st in
  match find e es 0 with
  | Some k => (p, es, n, rl n k)
  | None =>
    match e with
    | V i => push st (fun _ => IV i) e
    | K m k => push st (fun _ => IK m k (match b_lit prec m k with Some b => ofb b | None => BB BigZ.zero BigZ.zero BigZ.zero end)) e
    | EAdd a b => let '(st1, i) := comp st a in let '(st2, j) := comp st1 b in push st2 (fun n => IAdd (rl n i) (rl n j)) e
    | ESub a b => let '(st1, i) := comp st a in let '(st2, j) := comp st1 b in push st2 (fun n => ISub (rl n i) (rl n j)) e
    | EMul a b => let '(st1, i) := comp st a in let '(st2, j) := comp st1 b in push st2 (fun n => IMul (rl n i) (rl n j)) e
    | EDiv a b => let '(st1, i) := comp st a in let '(st2, j) := comp st1 b in push st2 (fun n => IDiv (rl n i) (rl n j)) e
    | EOpp a => let '(st1, i) := comp st a in push st1 (fun n => IOpp (rl n i)) e
    end
  end.
Definition compile (e : ex) : list ins * nat := let '(p, _, n, k) := comp ([], [], 0%nat) e in (rev p, rl n k).
Definition dflt : ex := V 0.
Definition dec1 (i : ins) (es : list ex) : ex :=
  match i with
  | IV i => V i | IK m e _ => K m e
  | IAdd i j => EAdd (nth i es dflt) (nth j es dflt) | ISub i j => ESub (nth i es dflt) (nth j es dflt)
  | IMul i j => EMul (nth i es dflt) (nth j es dflt) | IDiv i j => EDiv (nth i es dflt) (nth j es dflt)
  | IOpp i => EOpp (nth i es dflt)
  end.
Fixpoint decomp (p : list ins) (es : list ex) : list ex := match p with [] => es | i :: p' => decomp p' (dec1 i es :: es) end.
Definition lit_ok1 (i : ins) : bool :=
  match i with IK m e b => match b_lit prec m e with Some c => (lo c =? zz (bl b))%Z && (hi c =? zz (bh b))%Z && (er c =? zz (be b))%Z | None => false end | _ => true end.
Variable p2 : bigZ.
Definition ev2 (f : bb -> bb -> option bb) (i j : nat) (vs : list (option bb)) : option bb :=
  match nth i vs None with Some x => match nth j vs None with Some y => f x y | None => None end | None => None end.
Definition ev1 (env : nat -> bb) (i : ins) (vs : list (option bb)) : option bb :=
  match i with
  | IV i => Some (env i) | IK _ _ b => Some b
  | IAdd i j => ev2 (bb_add p2) i j vs | ISub i j => ev2 (bb_sub p2) i j vs | IMul i j => ev2 (bb_mul p2) i j vs | IDiv i j => ev2 (bb_div p2) i j vs
  | IOpp i => match nth i vs None with Some x => Some (bb_opp x) | None => None end
  end.
Fixpoint run (env : nat -> bb) (p : list ins) (vs : list (option bb)) : list (option bb) := match p with [] => vs | i :: p' => run env p' (ev1 env i vs :: vs) end.
End C.

(** evaluate on a list of environments and check the final error *)
Definition run_env (p2 : bigZ) (p : list ins) (k : nat) (env : list bnd) : option bb :=
  let env' := map ofb env in nth k (run p2 (fun i => nth i env' (BB BigZ.zero BigZ.zero BigZ.zero)) p []) None.
Definition check (prec : Z) (e : ex) (envs : list (list bnd)) (E : Z) : bool :=
  let p2 := P2 prec in let bE := oz E in let '(p, k) := compile prec e in
  ex_eqb (nth k (decomp p []) dflt) e && (k <? length p)%nat && forallb (lit_ok1 prec) p &&
  forallb (fun env => match run_env p2 p k env with Some b => BigZ.leb (be b) bE | None => false end) envs.
(** the errors over the list, for finding the bound to check *)
Definition worst (prec : Z) (e : ex) (envs : list (list bnd)) : list (option (Z * Z * Z)) :=
  let p2 := P2 prec in let '(p, k) := compile prec e in
  map (fun env => match run_env p2 p k env with Some b => Some (zz (bl b), zz (bh b), zz (be b)) | None => None end) envs.

Section E.
Variables prec emax : Z.
Context (Hp : Prec_gt_0 prec) (He : Prec_lt_emax prec emax).
Hypothesis prec1 : (1 < prec)%Z.
Hypothesis em : (128 <= emax)%Z.
Hypothesis em2 : (142 <= emax + prec)%Z.
Variable L : libm prec emax.
Notation N := (NumB prec emax Hp He L).
Lemma rel0 : rel prec emax (Bnd 0 0 0) 0 (B754_zero false).
Proof. split; [reflexivity|]. cbn [lo hi er B2R]. rewrite Rminus_0_r, Rabs_R0. lra. Qed.
Section R.
Variable p2 : bigZ.
Hypothesis Hp2 : zz p2 = prec.
Variables (env : nat -> bb) (renv : nat -> R) (fenv : nat -> binary_float prec emax).
Hypothesis HE : forall i, rel prec emax (tob (env i)) (renv i) (fenv i).
Definition good (b : bb) (e : ex) : Prop := rel prec emax (tob b) (evalR renv e) (evalN N fenv e).
Definition inv (vs : list (option bb)) (es : list ex) : Prop := forall i b, nth i vs None = Some b -> good b (nth i es dflt).
Lemma ev1_ok i vs es b : inv vs es -> lit_ok1 prec i = true -> ev1 p2 env i vs = Some b -> good b (dec1 i es).
Proof.
  intros I Lt. destruct i as [i|m e c|i j|i j|i j|i j|i]; cbn [ev1 dec1].
  - intros H. injection H as <-. apply HE.
  - intros H. injection H as <-. cbn [lit_ok1] in Lt. destruct (b_lit prec m e) as [v|] eqn:Q; [|discriminate]. rewrite !andb_true_iff, !Z.eqb_eq in Lt. destruct Lt as [[L1 L2] L3].
    unfold good. cbn [evalR evalN]. replace (tob c) with v by (unfold tob; rewrite <- L1, <- L2, <- L3; destruct v; reflexivity). exact (b_lit_ok prec emax Hp He prec1 em em2 L m e v Q).
  - unfold ev2. destruct (nth i vs None) as [x|] eqn:X; [|discriminate]. destruct (nth j vs None) as [y|] eqn:Y; [|discriminate]. intros H. pose proof (bb_add_ok prec ltac:(lia) p2 Hp2 x y) as O. rewrite H in O. symmetry in O.
    exact (b_add_ok prec emax Hp He prec1 em em2 L _ _ _ _ _ _ _ O (I _ _ X) (I _ _ Y)).
  - unfold ev2. destruct (nth i vs None) as [x|] eqn:X; [|discriminate]. destruct (nth j vs None) as [y|] eqn:Y; [|discriminate]. intros H. pose proof (bb_sub_ok prec ltac:(lia) p2 Hp2 x y) as O. rewrite H in O. symmetry in O.
    exact (b_sub_ok prec emax Hp He prec1 em em2 L _ _ _ _ _ _ _ O (I _ _ X) (I _ _ Y)).
  - unfold ev2. destruct (nth i vs None) as [x|] eqn:X; [|discriminate]. destruct (nth j vs None) as [y|] eqn:Y; [|discriminate]. intros H. pose proof (bb_mul_ok prec ltac:(lia) p2 Hp2 x y) as O. rewrite H in O. symmetry in O.
    exact (b_mul_ok prec emax Hp He prec1 em em2 L _ _ _ _ _ _ _ O (I _ _ X) (I _ _ Y)).
  - unfold ev2. destruct (nth i vs None) as [x|] eqn:X; [|discriminate]. destruct (nth j vs None) as [y|] eqn:Y; [|discriminate]. intros H. pose proof (bb_div_ok prec ltac:(lia) p2 Hp2 x y) as O. rewrite H in O. symmetry in O.
    exact (proj2 (b_div_ok prec emax Hp He prec1 em em2 L _ _ _ _ _ _ _ O (I _ _ X) (I _ _ Y))).
  - destruct (nth i vs None) as [x|] eqn:X; [|discriminate]. intros H. injection H as <-. unfold good. rewrite bb_opp_ok. exact (b_opp_ok prec emax Hp He L _ _ _ (I _ _ X)).
Qed.
Lemma run_ok p : forall vs es, forallb (lit_ok1 prec) p = true -> inv vs es -> inv (run p2 env p vs) (decomp p es).
Proof.
  induction p as [|i p IH]; intros vs es H I; [exact I|]. cbn [forallb] in H. apply andb_prop in H. destruct H as [H1 H2]. cbn [run decomp]. apply IH; [exact H2|].
  intros [|k] b Hk; [exact (ev1_ok i vs es b I H1 Hk)|exact (I k b Hk)].
Qed.
End R.
Theorem check_ok e envs E env (rs : list R) (fs : list (binary_float prec emax)) :
  check prec e envs E = true -> In env envs -> length rs = length env -> length fs = length env ->
  (forall i, (i < length env)%nat -> rel prec emax (nth i env (Bnd 0 0 0)) (nth i rs 0) (nth i fs (B754_zero false))) ->
  is_finite (evalN N (fun i => nth i fs (B754_zero false)) e) = true /\
  Rabs (B2R (evalN N (fun i => nth i fs (B754_zero false)) e) - evalR (fun i => nth i rs 0) e) * sc <= IZR E.
Proof.
  intros C I Lr Lf H. unfold check in C. cbv zeta in C. destruct (compile prec e) as [p k]. rewrite !andb_true_iff in C. destruct C as [[[C1 _] C3] C]. rewrite forallb_forall in C. specialize (C _ I).
  unfold run_env in C. cbv zeta in C. set (be' := fun i => nth i (map ofb env) (BB BigZ.zero BigZ.zero BigZ.zero)) in *. apply ex_eqb_eq in C1.
  assert (HE : forall i, rel prec emax (tob (be' i)) (nth i rs 0) (nth i fs (B754_zero false))).
  { intros i. destruct (Nat.lt_ge_cases i (length env)) as [G|G].
    + unfold be'. rewrite (nth_indep _ _ (ofb (Bnd 0 0 0))) by (rewrite map_length; exact G). rewrite map_nth, tob_ofb. apply H. exact G.
    + unfold be'. rewrite !nth_overflow by (rewrite ?map_length; lia). exact rel0. }
  pose proof (run_ok (P2 prec) ltac:(unfold P2; apply BigZ.spec_of_Z) be' _ _ HE p [] [] C3 ltac:(intros [|i] b Hb; discriminate)) as R.
  destruct (nth k (run (P2 prec) be' p []) None) as [b|] eqn:Q; [|discriminate]. specialize (R _ _ Q). rewrite C1 in R. destruct R as (F & _ & R).
  split; [exact F|]. eapply Rle_trans; [exact R|]. apply IZR_le. unfold tob. cbn [er]. rewrite BigZ.spec_leb, Z.leb_le, BigZ.spec_of_Z in C. exact C.
Qed.
(** an exact variable *)
Lemma rel_exact (f : binary_float prec emax) l h : is_finite f = true -> IZR l <= B2R f * sc <= IZR h -> rel prec emax (Bnd l h 0) (B2R f) f.
Proof. intros F H. split; [exact F|]. cbn [lo hi er]. rewrite Rminus_eq_0, Rabs_R0. lra. Qed.
(** a libm result *)
Lemma rel_close (f : binary_float prec emax) v l h : close f v -> IZR l <= v * sc <= IZR h ->
  rel prec emax (Bnd l h (4 * rup prec (Z.max (Z.abs l) (Z.abs h)))) v f.
Proof.
  intros [F H] I. split; [exact F|]. split; [exact I|]. cbn [er]. pose proof (mag_ok (Bnd l h 0) v I) as M. unfold mag in M. cbn [lo hi] in M. set (m := Z.max (Z.abs l) (Z.abs h)) in *.
  pose proof sc_pos as S0. unfold rup. rewrite mult_IZR, plus_IZR. destruct (floor_q m (2 ^ prec)) as [_ Q]; [apply Z.pow_nonzero; lia|]. rewrite plus_IZR in Q.
  assert (P0 : 0 < IZR (2 ^ prec)) by (apply IZR_lt, Z.pow_pos_nonneg; lia).
  assert (B : bpow radix2 (2 - prec) = 4 / IZR (2 ^ prec)). { replace (2 - prec)%Z with (2 + - prec)%Z by ring. rewrite bpow_plus, bpow_opp. rewrite <- (IZR_Zpower radix2 prec) by lia. reflexivity. }
  assert (T : bpow radix2 (3 - emax - prec) * sc <= 2). { rewrite sc_bpow. rewrite <- bpow_plus. change 2 with (bpow radix2 1). apply bpow_le. lia. }
  rewrite B in H. eapply Rle_trans; [apply Rmult_le_compat_r; [lra|exact H]|]. rewrite Rmult_plus_distr_r.
  replace (4 / IZR (2 ^ prec) * Rabs v * sc) with (4 * (Rabs v * sc / IZR (2 ^ prec))) by (field; lra).
  assert (Rabs v * sc / IZR (2 ^ prec) <= IZR m / IZR (2 ^ prec)) by (apply Rmult_le_compat_r; [left; apply Rinv_0_lt_compat; exact P0|exact M]). lra.
Qed.
End E.

(** the exact instance agrees with [evalR] wherever it is defined *)
Lemma evalN_R ep renv e v : evalN (NumR ep) (fun i => Some (renv i)) e = Some v -> evalR renv e = v.
Proof.
  revert v. induction e as [i|m k|a IHa b IHb|a IHa b IHb|a IHa b IHb|a IHa b IHb|a IHa]; intros v; cbn [evalN evalR NumR lit add sub mul div opp].
  - congruence.
  - intros E. injection E as <-. reflexivity.
  - destruct (evalN (NumR ep) _ a); [|discriminate]; destruct (evalN (NumR ep) _ b); [|discriminate]. intros E. injection E as <-. rewrite (IHa _ eq_refl), (IHb _ eq_refl). reflexivity.
  - destruct (evalN (NumR ep) _ a); [|discriminate]; destruct (evalN (NumR ep) _ b); [|discriminate]. intros E. injection E as <-. rewrite (IHa _ eq_refl), (IHb _ eq_refl). reflexivity.
  - destruct (evalN (NumR ep) _ a); [|discriminate]; destruct (evalN (NumR ep) _ b); [|discriminate]. intros E. injection E as <-. rewrite (IHa _ eq_refl), (IHb _ eq_refl). reflexivity.
  - destruct (evalN (NumR ep) _ a) as [x|]; [|discriminate]; destruct (evalN (NumR ep) _ b) as [y|]; [|discriminate]. unfold odiv. destruct (Req_EM_T y 0); [discriminate|]. intros E. injection E as <-. rewrite (IHa _ eq_refl), (IHb _ eq_refl). reflexivity.
  - destruct (evalN (NumR ep) _ a); [|discriminate]. intros E. injection E as <-. rewrite (IHa _ eq_refl). reflexivity.
Qed.
