(** * Horner schemes in exact arithmetic *)
From Coq Require Import ZArith Reals List Lia Lra.
From Coquelicot Require Import Coquelicot.
From Verif Require Import Num NumR Spec.
Import ListNotations.
Local Open Scope R_scope.

Lemma map_rev_Some (c : list R) : rev (map Some c) = map Some (rev c).
Proof. symmetry; apply map_rev. Qed.

(** value of a coefficient list, lowest degree first *)
Fixpoint pval (c : list R) (x : R) : R := match c with [] => 0 | a :: l => a + x * pval l x end.

Lemma pval_shift c x n : sum_f_R0 (fun i => nth i c 0 * x ^ i) (length c + n) = pval c x.
Proof.
  revert n. induction c as [|a l IH]; intros n.
  - cbn [length]. induction (0 + n)%nat as [|k K]; [cbn; ring|]. cbn [sum_f_R0]. rewrite K. destruct k; cbn; ring.
  - cbn [length pval Nat.add].
    rewrite (decomp_sum _ (S (length l + n))) by lia. cbn [nth pow Nat.pred].
    rewrite (sum_eq _ (fun i => (nth i l 0 * x ^ i) * x)).
    + rewrite <- scal_sum. rewrite IH. ring.
    + intros i _. cbn [pow]. ring.
Qed.
Lemma poly_pval c x : poly c x = pval c x.
Proof. unfold poly. rewrite <- (pval_shift c x 0). rewrite Nat.add_0_r. reflexivity. Qed.

Lemma horner_fold e x l t :
  fold_left (fun p ci => add (NumR e) (mul (NumR e) p (Some x)) ci) (map Some l) (Some t)
  = Some (fold_left (fun p ci => p * x + ci) l t).
Proof. revert t. induction l as [|a l IH]; intros t; [reflexivity|]. cbn. apply IH. Qed.

Lemma hfold_rev l x t : fold_left (fun p ci => p * x + ci) l t = pval (rev l ++ [t]) x.
Proof.
  revert t. induction l as [|a l IH]; intros t; [cbn; ring|].
  cbn [fold_left rev]. rewrite IH. rewrite <- app_assoc. cbn [app].
  generalize (rev l). intros r. induction r as [|b r R]; cbn; [ring|]. rewrite R. ring.
Qed.

Theorem horner_correct e x c : c <> [] ->
  horner (NumR e) (Some x) (map Some c) = Some (poly c x).
Proof.
  intros H. unfold horner. rewrite map_rev_Some. rewrite poly_pval.
  destruct (rev c) as [|t l] eqn:E.
  - apply (f_equal (@rev R)) in E. rewrite rev_involutive in E. cbn in E. congruence.
  - cbn [map]. rewrite horner_fold, hfold_rev. f_equal. f_equal.
    apply (f_equal (@rev R)) in E. rewrite rev_involutive in E. cbn in E. auto.
Qed.

(** complex *)
Fixpoint cpval (c : list R) (z : C) : C := match c with [] => RtoC 0 | a :: l => Cplus (RtoC a) (Cmult z (cpval l z)) end.
Lemma Csum_S f n : Csum f (S n) = Cplus (f O) (Csum (fun i => f (S i)) n).
Proof. induction n as [|n IH]; [cbn; rewrite Cplus_comm; reflexivity|]. cbn [Csum] in *. rewrite IH. rewrite Cplus_assoc. reflexivity. Qed.
Lemma Csum_ext f g n : (forall i, f i = g i) -> Csum f n = Csum g n.
Proof. intros H. induction n; cbn; congruence. Qed.
Lemma Csum_mul a f n : Cmult a (Csum f n) = Csum (fun i => Cmult a (f i)) n.
Proof. induction n as [|n IH]; cbn; [ring|]. rewrite <- IH. ring. Qed.
Lemma cpoly_cpval c z : cpoly c z = cpval c z.
Proof.
  unfold cpoly. induction c as [|a l IH]; [reflexivity|].
  cbn [length cpval]. rewrite Csum_S. rewrite <- IH, Csum_mul. cbn [nth Cpow]. f_equal.
  - ring.
  - apply Csum_ext. intros i. cbn [nth Cpow]. ring.
Qed.

Lemma cpval_app l m z : cpval (l ++ m) z = Cplus (cpval l z) (Cmult (Cpow z (length l)) (cpval m z)).
Proof. induction l as [|a l IH]; cbn; [ring|]. rewrite IH. ring. Qed.

(** invariant of the two-term recurrence: a z + b is the complex Horner value *)
Lemma chorner_loop_correct e (x y : R) (z := (x, y) : C) l a b :
  exists a' b', chorner_loop (NumR e) (Some (x + x)) (Some (x * x + y * y)) (map Some l) (Some a) (Some b) = (Some a', Some b')
   /\ Cplus (Cmult (RtoC a') z) (RtoC b') = cpval (rev l ++ [b; a]) z.
Proof.
  revert a b. induction l as [|c l IH]; intros a b.
  - exists a, b. split; [reflexivity|]. cbn [rev app cpval]. ring.
  - cbn [map]. unfold chorner_loop in *. cbn [fold_left fst snd].
    change (add (NumR e) (Some b) (mul (NumR e) (Some (x + x)) (Some a))) with (Some (b + (x + x) * a)).
    change (sub (NumR e) (Some c) (mul (NumR e) (Some (x*x+y*y)) (Some a))) with (Some (c - (x*x+y*y) * a)).
    destruct (IH (b + (x + x) * a) (c - (x*x+y*y)*a)) as (a' & b' & A & B).
    exists a', b'. split; [exact A|]. rewrite B. cbn [rev]. rewrite <- app_assoc. cbn [app].
    rewrite !cpval_app. f_equal. f_equal. cbn [cpval]. subst z.
    unfold Cplus, Cmult, RtoC; cbn [fst snd]. apply injective_projections; cbn; ring.
Qed.

Theorem chorner_correct e k (x y : R) c : (k + 2 <= length c)%nat ->
  chorner (NumR e) k (Some x, Some y) (map Some c) =
  (Some (fst (cpoly (skipn k c) (x, y))), Some (snd (cpoly (skipn k c) (x, y)))).
Proof.
  intros H. unfold chorner. rewrite map_rev_Some.
  assert (L : length (rev c) = length c) by apply rev_length.
  destruct (rev c) as [|a [|b l]] eqn:E; cbn [length] in L; [lia|lia|].
  cbn [map fst snd]. rewrite map_length. rewrite firstn_map.
  unfold cnorm; cbn [fst snd].
  change (add (NumR e) (Some x) (Some x)) with (Some (x + x)).
  change (add (NumR e) (mul (NumR e) (Some x) (Some x)) (mul (NumR e) (Some y) (Some y))) with (Some (x * x + y * y)).
  destruct (chorner_loop_correct e x y (firstn (length c - 2 - k) l) a b) as (a' & b' & A & B).
  cbn zeta. rewrite A. cbn [fst snd].
  assert (K : skipn k c = rev (firstn (length c - 2 - k) l) ++ [b; a]).
  { apply (f_equal (@rev R)) in E. rewrite rev_involutive in E. cbn [rev] in E. rewrite <- app_assoc in E. cbn [app] in E.
    rewrite E at 1. rewrite skipn_app. rewrite rev_length.
    replace (k - length l)%nat with O by lia. cbn [skipn]. f_equal.
    rewrite skipn_rev. f_equal. f_equal. lia. }
  rewrite cpoly_cpval, K, <- B. unfold Cplus, Cmult, RtoC. cbn.
  f_equal; f_equal; ring.
Qed.

(** The bound Nstart <= N - 2 is needed although the static_assert of the code
    only demands Nstart < N: for Nstart = N - 1 the code returns c_{N-2} + c_{N-1} z. *)
Lemma chorner_last e (x y a b : R) :
  chorner (NumR e) 1 (Some x, Some y) [Some b; Some a] = (Some (x * a + b), Some (y * a)).
Proof. reflexivity. Qed.
