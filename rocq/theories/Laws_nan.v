(** * NaN laws of an arithmetic, proved for every IEEE instance *)
From Coq Require Import ZArith List Bool Lia.
From Flocq Require Import Core IEEE754.BinarySingleNaN.
From Verif Require Import Num Outcome NumB.
Local Open Scope Z_scope.

(** NaN is absorbing for arithmetic and for the libm functions the code calls,
    comparisons with NaN are false. *)
Record nan_laws (N : num) : Prop := {
  add_nan_l : forall y, add N (nan N) y = nan N;
  add_nan_r : forall x, add N x (nan N) = nan N;
  sub_nan_l : forall y, sub N (nan N) y = nan N;
  sub_nan_r : forall x, sub N x (nan N) = nan N;
  mul_nan_l : forall y, mul N (nan N) y = nan N;
  mul_nan_r : forall x, mul N x (nan N) = nan N;
  div_nan_l : forall y, div N (nan N) y = nan N;
  div_nan_r : forall x, div N x (nan N) = nan N;
  opp_nan : opp N (nan N) = nan N;
  ltb_nan_l : forall y, ltb N (nan N) y = false;
  ltb_nan_r : forall x, ltb N x (nan N) = false;
  leb_nan_l : forall y, leb N (nan N) y = false;
  leb_nan_r : forall x, leb N x (nan N) = false;
  eqb_nan_l : forall y, eqb N (nan N) y = false;
  eqb_nan_r : forall x, eqb N x (nan N) = false;
  isnan_nan : isnan N (nan N) = true;
  fmod_nan_l : forall y, nfmod N (nan N) y = nan N;
  log_nan : nlog N (nan N) = nan N;
  log1p_nan : nlog1p N (nan N) = nan N;
  sin_nan : nsin N (nan N) = nan N;
  cos_nan : ncos N (nan N) = nan N
}.

(** What the C standard says about NaN for the libm functions used (F.10). *)
Record libm_nan {prec emax} (L : libm prec emax) : Prop := {
  log_nan_spec : m_log _ _ L B754_nan = B754_nan;
  log1p_nan_spec : m_log1p _ _ L B754_nan = B754_nan;
  sin_nan_spec : m_sin _ _ L B754_nan = B754_nan;
  cos_nan_spec : m_cos _ _ L B754_nan = B754_nan
}.

Lemma NumB_nan_laws prec emax Hp He L : libm_nan L -> nan_laws (NumB prec emax Hp He L).
Proof.
  intros [A B C D].
  constructor; cbn [add sub mul div opp ltb leb eqb isnan nfmod nlog nlog1p nsin ncos nan NumB]; auto;
  try (intros []; reflexivity); try reflexivity.
Qed.

(** rewrite NaN away; syntactic matching only, so that no unfolding is tried *)
Ltac nan1 H :=
  match goal with
  | |- context[add ?N (nan ?N) ?y] => rewrite (add_nan_l N H y)
  | |- context[add ?N ?x (nan ?N)] => rewrite (add_nan_r N H x)
  | |- context[sub ?N (nan ?N) ?y] => rewrite (sub_nan_l N H y)
  | |- context[sub ?N ?x (nan ?N)] => rewrite (sub_nan_r N H x)
  | |- context[mul ?N (nan ?N) ?y] => rewrite (mul_nan_l N H y)
  | |- context[mul ?N ?x (nan ?N)] => rewrite (mul_nan_r N H x)
  | |- context[div ?N (nan ?N) ?y] => rewrite (div_nan_l N H y)
  | |- context[div ?N ?x (nan ?N)] => rewrite (div_nan_r N H x)
  | |- context[opp ?N (nan ?N)] => rewrite (opp_nan N H)
  | |- context[ltb ?N (nan ?N) ?y] => rewrite (ltb_nan_l N H y)
  | |- context[ltb ?N ?x (nan ?N)] => rewrite (ltb_nan_r N H x)
  | |- context[leb ?N (nan ?N) ?y] => rewrite (leb_nan_l N H y)
  | |- context[leb ?N ?x (nan ?N)] => rewrite (leb_nan_r N H x)
  | |- context[eqb ?N (nan ?N) ?y] => rewrite (eqb_nan_l N H y)
  | |- context[eqb ?N ?x (nan ?N)] => rewrite (eqb_nan_r N H x)
  | |- context[isnan ?N (nan ?N)] => rewrite (isnan_nan N H)
  | |- context[nfmod ?N (nan ?N) ?y] => rewrite (fmod_nan_l N H y)
  | |- context[nlog ?N (nan ?N)] => rewrite (log_nan N H)
  | |- context[nlog1p ?N (nan ?N)] => rewrite (log1p_nan N H)
  | |- context[nsin ?N (nan ?N)] => rewrite (sin_nan N H)
  | |- context[ncos ?N (nan ?N)] => rewrite (cos_nan N H)
  end.
Ltac nan_simpl H := repeat nan1 H.

(** goal-directed proof that a term is NaN *)
Section Prove.
Variable N : num.
Hypothesis H : nan_laws N.
Lemma add_nl a b : a = nan N -> add N a b = nan N. Proof. intros ->. apply (add_nan_l N H). Qed.
Lemma add_nr a b : b = nan N -> add N a b = nan N. Proof. intros ->. apply (add_nan_r N H). Qed.
Lemma sub_nl a b : a = nan N -> sub N a b = nan N. Proof. intros ->. apply (sub_nan_l N H). Qed.
Lemma sub_nr a b : b = nan N -> sub N a b = nan N. Proof. intros ->. apply (sub_nan_r N H). Qed.
Lemma mul_nl a b : a = nan N -> mul N a b = nan N. Proof. intros ->. apply (mul_nan_l N H). Qed.
Lemma mul_nr a b : b = nan N -> mul N a b = nan N. Proof. intros ->. apply (mul_nan_r N H). Qed.
Lemma div_nl a b : a = nan N -> div N a b = nan N. Proof. intros ->. apply (div_nan_l N H). Qed.
Lemma div_nr a b : b = nan N -> div N a b = nan N. Proof. intros ->. apply (div_nan_r N H). Qed.
Lemma opp_n a : a = nan N -> opp N a = nan N. Proof. intros ->. apply (opp_nan N H). Qed.
Lemma log_n a : a = nan N -> nlog N a = nan N. Proof. intros ->. apply (log_nan N H). Qed.
Lemma log1p_n a : a = nan N -> nlog1p N a = nan N. Proof. intros ->. apply (log1p_nan N H). Qed.
Lemma sin_n a : a = nan N -> nsin N a = nan N. Proof. intros ->. apply (sin_nan N H). Qed.
Lemma cos_n a : a = nan N -> ncos N a = nan N. Proof. intros ->. apply (cos_nan N H). Qed.
End Prove.
Lemma if_false {A} (b : bool) (x y r : A) : b = false -> y = r -> (if b then x else y) = r.
Proof. intros -> ->. reflexivity. Qed.
Ltac nan_prove H :=
  cbv beta iota;
  lazymatch goal with
  | |- nan _ = nan _ => reflexivity
  | |- add ?N ?a ?b = nan _ => first [refine (add_nr N H a b _); nan_prove H | refine (add_nl N H a b _); nan_prove H]
  | |- sub ?N ?a ?b = nan _ => first [refine (sub_nr N H a b _); nan_prove H | refine (sub_nl N H a b _); nan_prove H]
  | |- mul ?N ?a ?b = nan _ => first [refine (mul_nl N H a b _); nan_prove H | refine (mul_nr N H a b _); nan_prove H]
  | |- div ?N ?a ?b = nan _ => first [refine (div_nl N H a b _); nan_prove H | refine (div_nr N H a b _); nan_prove H]
  | |- opp ?N ?a = nan _ => refine (opp_n N H a _); nan_prove H
  | |- nlog ?N ?a = nan _ => refine (log_n N H a _); nan_prove H
  | |- nlog1p ?N ?a = nan _ => refine (log1p_n N H a _); nan_prove H
  | |- nsin ?N ?a = nan _ => refine (sin_n N H a _); nan_prove H
  | |- ncos ?N ?a = nan _ => refine (cos_n N H a _); nan_prove H
  | |- (if ?b then _ else _) = nan _ => refine (if_false _ _ _ _ _ _); [nan_simpl H; reflexivity | nan_prove H]
  | |- (let x := ?e in @?b x) = ?r =>
      let T := type of e in
      tryif (lazymatch T with _ -> _ => idtac end) then (change (b e = r); nan_prove H)
      else tryif (let E := fresh in
             match goal with |- _ = @nan ?N => assert (E : e = nan N) by nan_prove H end;
             change (b e = r); rewrite E; clear E)
      then nan_prove H
      else (let v := fresh "v" in set (v := e); change (b v = r); clearbody v; nan_prove H)
  | |- context[if ?c then _ else _] =>       (* let '(x, y) := if c then .. else .. in *)
      let E := fresh in assert (E : c = false) by (nan_simpl H; reflexivity); rewrite E; clear E; nan_prove H
  | |- _ => fail
  end.
