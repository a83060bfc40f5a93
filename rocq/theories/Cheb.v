(** * Certified bounds of integer-coefficient polynomials on an interval.

    The polynomial is rewritten in the Chebyshev basis of the interval with
    exact integer arithmetic; since |T_k| <= 1 the sum of the absolute values of
    the coefficients bounds it.  Nothing here mentions the code. *)
From Coq Require Import Reals Lra Lia Psatz ZArith List.
From Coquelicot Require Import Coquelicot.
Import ListNotations.
Local Open Scope R_scope.

(** value of an integer polynomial, constant coefficient first *)
Fixpoint pz (l : list Z) (x : R) : R := match l with [] => 0 | a :: l' => IZR a + x * pz l' x end.

Fixpoint padd (a b : list Z) : list Z :=
  match a, b with [], _ => b | _, [] => a | x :: a', y :: b' => (x + y)%Z :: padd a' b' end.
Definition pscal (c : Z) (a : list Z) : list Z := map (Z.mul c) a.
Fixpoint pmul (a b : list Z) : list Z :=
  match a with [] => [] | x :: a' => padd (pscal x b) (0%Z :: pmul a' b) end.
Definition psub (a b : list Z) : list Z := padd a (pscal (-1) b).

Lemma pz_add a b x : pz (padd a b) x = pz a x + pz b x.
Proof. revert b. induction a as [|u a IH]; intros [|v b]; cbn [padd pz]; try ring. rewrite IH, plus_IZR. ring. Qed.
Lemma pz_scal c a x : pz (pscal c a) x = IZR c * pz a x.
Proof. induction a as [|u a IH]; cbn [pscal map pz]; [ring|]. change (map (Z.mul c) a) with (pscal c a). rewrite IH, mult_IZR. ring. Qed.
Lemma pz_mul a b x : pz (pmul a b) x = pz a x * pz b x.
Proof. induction a as [|u a IH]; cbn [pmul pz]; [ring|]. rewrite pz_add, pz_scal. cbn [pz]. rewrite IH. ring. Qed.
Lemma pz_sub a b x : pz (psub a b) x = pz a x - pz b x.
Proof. unfold psub. rewrite pz_add, pz_scal. ring. Qed.

(** ** Chebyshev sums at angle th: sum c_j cos((k+j) th) *)
Fixpoint ce (k : nat) (c : list Z) (th : R) : R :=
  match c with [] => 0 | a :: c' => IZR a * cos (INR k * th) + ce (S k) c' th end.
Lemma ce_add k a b th : ce k (padd a b) th = ce k a th + ce k b th.
Proof. revert k b. induction a as [|u a IH]; intros k [|v b]; cbn [padd ce]; try ring. rewrite IH, plus_IZR. ring. Qed.
Lemma ce_scal k c a th : ce k (pscal c a) th = IZR c * ce k a th.
Proof. revert k. induction a as [|u a IH]; intros k; cbn [pscal map ce]; [ring|]. change (map (Z.mul c) a) with (pscal c a). rewrite IH, mult_IZR. ring. Qed.
Lemma cos_rec k th : 2 * cos th * cos (INR (S k) * th) = cos (INR (S (S k)) * th) + cos (INR k * th).
Proof.
  rewrite !S_INR. replace ((INR k + 1 + 1) * th) with ((INR k + 1) * th + th) by ring.
  replace (INR k * th) with ((INR k + 1) * th - th) by ring. rewrite cos_plus, cos_minus. ring.
Qed.
Lemma ce_shift k c th : 2 * cos th * ce (S k) c th = ce (S (S k)) c th + ce k c th.
Proof.
  revert k. induction c as [|a c IH]; intros k; [cbn [ce]; ring|].
  change (ce (S k) (a :: c) th) with (IZR a * cos (INR (S k) * th) + ce (S (S k)) c th).
  change (ce (S (S k)) (a :: c) th) with (IZR a * cos (INR (S (S k)) * th) + ce (S (S (S k))) c th).
  change (ce k (a :: c) th) with (IZR a * cos (INR k * th) + ce (S k) c th).
  rewrite Rmult_plus_distr_l, IH. replace (2 * cos th * (IZR a * cos (INR (S k) * th))) with (IZR a * (2 * cos th * cos (INR (S k) * th))) by ring.
  rewrite cos_rec. ring.
Qed.
(** 2 (A t + B) f(t) in the Chebyshev basis *)
Definition mul2 (A B : Z) (c : list Z) : list Z :=
  match c with
  | [] => []
  | c0 :: r => padd (pscal A (padd (0%Z :: 2 * c0 :: r)%Z r)) (pscal (2 * B) c)
  end.
Lemma mul2_ok A B c th : ce 0 (mul2 A B c) th = 2 * (IZR A * cos th + IZR B) * ce 0 c th.
Proof.
  destruct c as [|c0 r]; [cbn; ring|]. unfold mul2. rewrite ce_add, !ce_scal, ce_add.
  change (ce 0 (0%Z :: (2 * c0)%Z :: r) th) with (IZR 0 * cos (INR 0 * th) + (IZR (2 * c0) * cos (INR 1 * th) + ce 2 r th)).
  change (ce 0 (c0 :: r) th) with (IZR c0 * cos (INR 0 * th) + ce 1 r th).
  pose proof (ce_shift 0 r th) as K. rewrite !mult_IZR. change (INR 0) with 0. change (INR 1) with 1.
  rewrite !Rmult_0_l, Rmult_1_l, cos_0. 
  replace (IZR A * (0 + (2 * IZR c0 * cos th + ce 2 r th) + ce 0 r th)) with (IZR A * (2 * IZR c0 * cos th + (ce 2 r th + ce 0 r th))) by ring.
  rewrite <- K. ring.
Qed.

(** Horner with powers of 2E: result (coefficients, (2E)^length) *)
Fixpoint conv (A B E : Z) (l : list Z) : list Z * Z :=
  match l with
  | [] => ([], 1%Z)
  | a :: l' => let '(c, s) := conv A B E l' in (padd [a * (2 * E) * s]%Z (mul2 A B c), (2 * E * s)%Z)
  end.
Lemma conv_ok A B E l th : (0 < E)%Z ->
  (0 < snd (conv A B E l))%Z /\
  ce 0 (fst (conv A B E l)) th = IZR (snd (conv A B E l)) * pz l ((IZR A * cos th + IZR B) / IZR E).
Proof.
  intros HE. assert (E0 : IZR E <> 0) by (apply IZR_neq; lia).
  induction l as [|a l [S IH]]; [cbn; split; [lia|ring]|]. cbn [conv pz].
  destruct (conv A B E l) as [c s]. cbn [fst snd] in *. split; [nia|].
  rewrite ce_add, mul2_ok, IH. cbn [ce]. change (INR 0) with 0. rewrite Rmult_0_l, cos_0, !mult_IZR. field. exact E0.
Qed.
Fixpoint sumabs (c : list Z) : Z := match c with [] => 0%Z | a :: c' => (Z.abs a + sumabs c')%Z end.
Lemma ce_bound k c th : Rabs (ce k c th) <= IZR (sumabs c).
Proof.
  revert k. induction c as [|a c IH]; intros k; cbn [ce sumabs]; [rewrite Rabs_R0; lra|].
  rewrite plus_IZR, abs_IZR. eapply Rle_trans; [apply Rabs_triang|]. apply Rplus_le_compat; [|apply IH].
  rewrite Rabs_mult. rewrite <- (Rmult_1_r (Rabs (IZR a))) at 2. apply Rmult_le_compat_l; [apply Rabs_pos|].
  apply Rabs_le. destruct (COS_bound (INR k * th)). lra.
Qed.
Lemma cos_onto A B E x : (0 < A)%Z -> (0 < E)%Z -> (IZR B - IZR A) / IZR E <= x <= (IZR B + IZR A) / IZR E ->
  exists th, x = (IZR A * cos th + IZR B) / IZR E.
Proof.
  intros HA HE H. assert (A0 : 0 < IZR A) by (apply (IZR_lt 0); lia). assert (E0 : 0 < IZR E) by (apply (IZR_lt 0); lia).
  set (t := (x * IZR E - IZR B) / IZR A).
  assert (T : -1 <= t <= 1).
  { unfold t. destruct H as [H1 H2]. 
    apply (Rmult_le_compat_r (IZR E)) in H1; [|lra]. apply (Rmult_le_compat_r (IZR E)) in H2; [|lra].
    unfold Rdiv in H1, H2. rewrite Rmult_assoc, Rinv_l, Rmult_1_r in H1, H2 by lra.
    split; apply Rmult_le_reg_r with (IZR A); try assumption; unfold Rdiv; rewrite Rmult_assoc, Rinv_l by lra; lra. }
  exists (acos t). rewrite cos_acos by exact T. unfold t. field. split; lra.
Qed.

(** the bound: |p(x)| <= num/den on [(B-A)/E, (B+A)/E] *)
Definition cheb_check (A B E : Z) (l : list Z) (num den : Z) : bool :=
  let '(c, s) := conv A B E l in
  ((0 <? A) && (0 <? E) && (0 <? den) && (sumabs c * den <=? num * s))%Z%bool.
Theorem cheb_bound A B E l num den : cheb_check A B E l num den = true ->
  forall x, (IZR B - IZR A) / IZR E <= x <= (IZR B + IZR A) / IZR E -> Rabs (pz l x) <= IZR num / IZR den.
Proof.
  unfold cheb_check. destruct (conv A B E l) as [c s] eqn:EC. rewrite !Bool.andb_true_iff, !Z.ltb_lt, Z.leb_le.
  intros [[[HA HE] HD] HS] x Hx. destruct (cos_onto A B E x HA HE Hx) as [th ->].
  destruct (conv_ok A B E l th HE) as [S K]. rewrite EC in S, K. cbn [fst snd] in S, K.
  pose proof (ce_bound 0 c th) as Q. rewrite K, Rabs_mult in Q.
  assert (S0 : 0 < IZR s) by (apply (IZR_lt 0); lia). assert (D0 : 0 < IZR den) by (apply (IZR_lt 0); lia).
  rewrite (Rabs_pos_eq (IZR s)) in Q by lra. apply IZR_le in HS. rewrite !mult_IZR in HS.
  set (p := Rabs (pz l _)) in *. 
  apply Rmult_le_reg_r with (IZR den * IZR s); [nra|].
  replace (IZR num / IZR den * (IZR den * IZR s)) with (IZR num * IZR s) by (field; lra). nra.
Qed.
(** a positive lower bound: c_0 - sum_{k>=1} |c_k| *)
Definition cheb_pos (A B E : Z) (l : list Z) (num den : Z) : bool :=
  let '(c, s) := conv A B E l in
  match c with
  | c0 :: r => ((0 <? A) && (0 <? E) && (0 <? den) && (num * s <=? (c0 - sumabs r) * den))%Z%bool
  | [] => false
  end.
Theorem cheb_lower A B E l num den : cheb_pos A B E l num den = true ->
  forall x, (IZR B - IZR A) / IZR E <= x <= (IZR B + IZR A) / IZR E -> IZR num / IZR den <= pz l x.
Proof.
  unfold cheb_pos. destruct (conv A B E l) as [[|c0 r] s] eqn:EC; [discriminate|]. rewrite !Bool.andb_true_iff, !Z.ltb_lt, Z.leb_le.
  intros [[[HA HE] HD] HS] x Hx. destruct (cos_onto A B E x HA HE Hx) as [th ->].
  destruct (conv_ok A B E l th HE) as [S K]. rewrite EC in S, K. cbn [fst snd] in S, K.
  pose proof (ce_bound 1 r th) as Q. cbn [ce] in K. change (INR 0) with 0 in K. rewrite Rmult_0_l, cos_0, Rmult_1_r in K.
  assert (S0 : 0 < IZR s) by (apply (IZR_lt 0); lia). assert (D0 : 0 < IZR den) by (apply (IZR_lt 0); lia).
  apply IZR_le in HS. rewrite !mult_IZR, minus_IZR in HS. apply Rabs_le_between in Q.
  set (p := pz l _) in *.
  apply Rmult_le_reg_r with (IZR den * IZR s); [nra|].
  replace (IZR num / IZR den * (IZR den * IZR s)) with (IZR num * IZR s) by (field; lra). nra.
Qed.

(** ** derivative and antiderivative *)
Fixpoint pder (l : list Z) : list Z := match l with [] => [] | _ :: l' => padd l' (0%Z :: pder l') end.
Lemma pz_derive l x : is_derive (pz l) x (pz (pder l) x).
Proof.
  revert x. induction l as [|a l IH]; intros x; cbn [pz pder].
  - apply (is_derive_const (V := R_NormedModule)).
  - rewrite pz_add. cbn [pz].
    replace (pz l x + (0 + x * pz (pder l) x)) with (0 + (1 * pz l x + x * pz (pder l) x)) by ring.
    apply (is_derive_plus (fun _ => IZR a) (fun x => x * pz l x)); [apply (is_derive_const (V := R_NormedModule))|].
    apply (is_derive_mult (fun x => x) (pz l)); [exact (@is_derive_id R_AbsRing x)|apply IH|intros; apply Rmult_comm].
Qed.
Lemma pz_continuous l x : continuous (pz l) x.
Proof. apply (ex_derive_continuous (pz l)). eexists. apply pz_derive. Qed.
