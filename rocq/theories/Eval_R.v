(** * Evaluating the model in exact arithmetic

    Rewriting lemmas that compute the operations of [NumR], and the literal
    tables of the model as lists of (mantissa, exponent) pairs. *)
From Coq Require Import ZArith Reals List Bool Lra Lia.
From Coquelicot Require Import Rcomplements.
From Verif Require Import Num NumR Spec Cheb.
Import ListNotations.
Local Open Scope R_scope.

Lemma litR_int m : litR m 0 = IZR m.
Proof. unfold litR. cbn [Z.leb Z.compare]. rewrite Z.pow_0_r, Z.mul_1_r. reflexivity. Qed.
Lemma litR_scale K m e : (0 <= K)%Z -> (0 <= K + e)%Z -> litR m e = IZR (m * 10 ^ (K + e)) / IZR (10 ^ K).
Proof.
  intros HK HE. assert (P : IZR (10 ^ K) <> 0) by (apply IZR_neq, Z.pow_nonzero; lia).
  unfold litR. destruct (Z.leb_spec 0 e).
  - rewrite Z.pow_add_r by lia. rewrite !mult_IZR. field. exact P.
  - rewrite mult_IZR. assert (Q : IZR (10 ^ (- e)) <> 0) by (apply IZR_neq, Z.pow_nonzero; lia).
    replace (10 ^ K)%Z with (10 ^ (K + e) * 10 ^ (- e))%Z by (rewrite <- Z.pow_add_r by lia; f_equal; lia).
    rewrite mult_IZR. field. split; [exact Q|]. apply IZR_neq, Z.pow_nonzero; lia.
Qed.
Lemma litR_dec m k : litR m (Z.neg k) = IZR m / IZR (10 ^ Z.pos k).
Proof. reflexivity. Qed.
Lemma p10 n : IZR (10 ^ Z.of_nat n) = 10 ^ n.
Proof. symmetry. apply pow_IZR. Qed.
Lemma litR_half : litR 5 (-1) = / 2.
Proof. rewrite litR_dec. cbn [Z.pow Z.pow_pos Pos.iter]. change (IZR 5 / 10 = /2). lra. Qed.
Lemma litR_mhalf : litR (-5) (-1) = - / 2.
Proof. rewrite litR_dec. change (IZR (-5) / 10 = - /2). lra. Qed.

Lemma Rltb_true a b : a < b -> Rltb a b = true.
Proof. intros H. unfold Rltb. destruct (Rlt_dec a b); [reflexivity|contradiction]. Qed.
Lemma Rltb_false a b : b <= a -> Rltb a b = false.
Proof. intros H. unfold Rltb. destruct (Rlt_dec a b); [lra|reflexivity]. Qed.
Lemma Rleb_true a b : a <= b -> Rleb a b = true.
Proof. intros H. unfold Rleb. destruct (Rle_dec a b); [reflexivity|contradiction]. Qed.
Lemma Rleb_false a b : b < a -> Rleb a b = false.
Proof. intros H. unfold Rleb. destruct (Rle_dec a b); [lra|reflexivity]. Qed.
Lemma Reqb_true a b : a = b -> Reqb a b = true.
Proof. intros H. unfold Reqb. destruct (Req_EM_T a b); [reflexivity|contradiction]. Qed.
Lemma Reqb_false a b : a <> b -> Reqb a b = false.
Proof. intros H. unfold Reqb. destruct (Req_EM_T a b); [contradiction|reflexivity]. Qed.
Lemma odiv_some a b : b <> 0 -> odiv (Some a) (Some b) = Some (a / b).
Proof. intros H. unfold odiv. destruct (Req_EM_T b 0); [contradiction|reflexivity]. Qed.
Lemma olog_some a : 0 < a -> olog (Some a) = Some (ln a).
Proof. intros H. unfold olog. destruct (Rlt_dec 0 a); [reflexivity|contradiction]. Qed.
Lemma olog1p_some a : -1 < a -> olog1p (Some a) = Some (ln (1 + a)).
Proof. intros H. unfold olog1p. destruct (Rlt_dec (-1) a); [reflexivity|contradiction]. Qed.

(** ** the literals of a model table as data *)
Definition NumLit : num := {|
  car := Z * Z;
  lit := fun m e => (m, e); ofZ := fun z => (z, 0%Z);
  add := fun a _ => a; sub := fun a _ => a; mul := fun a _ => a; div := fun a _ => a; opp := fun a => a;
  ltb := fun _ _ => false; leb := fun _ _ => false; eqb := fun _ _ => false;
  isnan := fun _ => false; isinf := fun _ => false;
  nan := (0, 0)%Z; inf := (0, 0)%Z; eps := (0, 0)%Z;
  nlog := fun a => a; nlog1p := fun a => a; nsin := fun a => a; ncos := fun a => a; nexp := fun a => a;
  nsqrt := fun a => a; nfmod := fun a _ => a; npow := fun a _ => a; nhypot := fun a _ => a; natan2 := fun a _ => a;
  natan := fun a => a; nexp2 := fun a => a; ntgamma := fun a => a; ceil_to_Z := fun _ => None
|}.
Definition litp (p : Z * Z) : R := litR (fst p) (snd p).
(** the polynomial with the given literals as coefficients, constant first *)
Fixpoint plit (l : list (Z * Z)) (x : R) : R :=
  match l with [] => 0 | p :: l' => litp p + x * plit l' x end.
Definition zs_of (K : Z) (l : list (Z * Z)) : list Z := map (fun p => (fst p * 10 ^ (K + snd p))%Z) l.
Definition scale_ok (K : Z) (l : list (Z * Z)) : bool := ((0 <=? K) && forallb (fun p => 0 <=? K + snd p) l)%Z%bool.
Lemma plit_pz K l x : scale_ok K l = true -> plit l x = pz (zs_of K l) x / IZR (10 ^ K).
Proof.
  unfold scale_ok. rewrite andb_true_iff, Z.leb_le. intros [HK H].
  assert (P : IZR (10 ^ K) <> 0) by (apply IZR_neq, Z.pow_nonzero; lia).
  induction l as [|[m e] l IH]; cbn [plit zs_of map pz]; [field; exact P|].
  cbn [forallb fst snd] in H. rewrite andb_true_iff, Z.leb_le in H. destruct H as [H1 H2].
  change (map (fun p : Z * Z => (fst p * 10 ^ (K + snd p))%Z) l) with (zs_of K l).
  rewrite (IH H2). unfold litp. cbn [fst snd]. rewrite (litR_scale K) by lia. field. exact P.
Qed.
(** real Horner evaluation of a literal table *)
Lemma horner_lit e (l : list (Z * Z)) x : l <> [] ->
  horner (NumR e) (Some x) (map (fun p => Some (litp p)) l) = Some (plit l x).
Proof.
  assert (G : forall m a, fold_left (fun p ci : option R => lift2 Rplus (lift2 Rmult p (Some x)) ci) (map (fun p => Some (litp p)) (rev m)) (Some a)
                = Some (plit m x + x ^ length m * a)).
  { induction m as [|p m IH]; intros a; cbn [rev map fold_left plit length pow]; [f_equal; ring|].
    rewrite map_app, fold_left_app, IH. cbn [map fold_left lift2]. f_equal. ring. }
  intros H. unfold horner. rewrite <- map_rev. destruct (rev l) as [|t r] eqn:E.
  - exfalso. apply H. rewrite <- (rev_involutive l), E. reflexivity.
  - cbn [map]. assert (EL : l = rev r ++ [t]) by (rewrite <- (rev_involutive l), E; reflexivity).
    pose proof (G (rev r) (litp t)) as K. rewrite rev_involutive in K.
    etransitivity; [exact K|]. rewrite EL. f_equal. clear. induction (rev r) as [|p m IH]; cbn [app plit length pow]; [ring|]. rewrite <- IH. ring.
Qed.

(** IZR (10 ^ n) for a numeral n, as a real power *)
Tactic Notation "p10" constr(n) := (let z := eval vm_compute in (Z.of_nat n) in replace (IZR (10 ^ z)%Z) with (10 ^ n)%R by (symmetry; exact (p10 n))).
Tactic Notation "p10" constr(n) "in" hyp(H) := (let z := eval vm_compute in (Z.of_nat n) in replace (IZR (10 ^ z)%Z) with (10 ^ n)%R in H by (symmetry; exact (p10 n))).
