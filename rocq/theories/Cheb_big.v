(** * The checkers of Cheb.v and Poly_check.v on machine-word bignums.

    The same computations over [bigZ]; each is proved to return what the [Z]
    version returns, so a successful check gives the same bound. *)
From Coq Require Import Reals Lra Lia Psatz ZArith List Bool.
From Coquelicot Require Import Rcomplements.
From Bignums Require Import BigZ.
From Verif Require Import Cheb Poly_check.
Import ListNotations.

Definition toZ (l : list bigZ) : list Z := map BigZ.to_Z l.
Definition ofZl (l : list Z) : list bigZ := map BigZ.of_Z l.
Lemma toZ_ofZl l : toZ (ofZl l) = l.
Proof. unfold toZ, ofZl. rewrite map_map. induction l as [|a l IH]; cbn [map]; [reflexivity|]. rewrite IH, BigZ.spec_of_Z. reflexivity. Qed.

Fixpoint badd (a b : list bigZ) : list bigZ :=
  match a, b with [], _ => b | _, [] => a | x :: a', y :: b' => BigZ.add x y :: badd a' b' end.
Definition bscal (c : bigZ) (a : list bigZ) : list bigZ := map (BigZ.mul c) a.
Fixpoint bmul (a b : list bigZ) : list bigZ :=
  match a with [] => [] | x :: a' => badd (bscal x b) (BigZ.zero :: bmul a' b) end.
Definition bsub (a b : list bigZ) : list bigZ := badd a (bscal (BigZ.of_Z (-1)) b).
Lemma badd_ok a b : toZ (badd a b) = padd (toZ a) (toZ b).
Proof.
  revert b. induction a as [|x a IH]; intros [|y b]; try reflexivity. cbn [badd toZ map padd]. unfold toZ in IH. rewrite IH, BigZ.spec_add. reflexivity.
Qed.
Lemma bscal_ok c a : toZ (bscal c a) = pscal (BigZ.to_Z c) (toZ a).
Proof. unfold toZ, bscal, pscal. rewrite !map_map. apply map_ext. intros x. apply BigZ.spec_mul. Qed.
Lemma bmul_ok a b : toZ (bmul a b) = pmul (toZ a) (toZ b).
Proof.
  induction a as [|x a IH]; [reflexivity|]. cbn [bmul]. rewrite badd_ok, bscal_ok. cbn [toZ map pmul]. unfold toZ in IH. rewrite IH, BigZ.spec_0. reflexivity.
Qed.
Lemma bsub_ok a b : toZ (bsub a b) = psub (toZ a) (toZ b).
Proof. unfold bsub, psub. rewrite badd_ok, bscal_ok, BigZ.spec_of_Z. reflexivity. Qed.

Definition bmul2 (A B : bigZ) (c : list bigZ) : list bigZ :=
  match c with
  | [] => []
  | c0 :: r => badd (bscal A (badd (BigZ.zero :: BigZ.mul (BigZ.of_Z 2) c0 :: r) r)) (bscal (BigZ.mul (BigZ.of_Z 2) B) c)
  end.
Lemma bmul2_ok A B c : toZ (bmul2 A B c) = mul2 (BigZ.to_Z A) (BigZ.to_Z B) (toZ c).
Proof.
  destruct c as [|c0 r]; [reflexivity|]. unfold bmul2. rewrite badd_ok, !bscal_ok, badd_ok. cbn [toZ map mul2].
  rewrite !BigZ.spec_mul, BigZ.spec_of_Z, BigZ.spec_0. reflexivity.
Qed.
Fixpoint bconv (A B E : bigZ) (l : list bigZ) : list bigZ * bigZ :=
  match l with
  | [] => ([], BigZ.one)
  | a :: l' => let '(c, s) := bconv A B E l' in
               let s' := BigZ.mul (BigZ.mul (BigZ.of_Z 2) E) s in
               (badd [BigZ.mul a s'] (bmul2 A B c), s')
  end.
Lemma bconv_ok A B E l : conv (BigZ.to_Z A) (BigZ.to_Z B) (BigZ.to_Z E) (toZ l) = (toZ (fst (bconv A B E l)), BigZ.to_Z (snd (bconv A B E l))).
Proof.
  induction l as [|a l IH]; [cbn [bconv toZ map conv fst snd]; rewrite BigZ.spec_1; reflexivity|]. cbn [bconv toZ map conv]. change (map BigZ.to_Z l) with (toZ l). rewrite IH.
  destruct (bconv A B E l) as [c s]. cbn [fst snd]. rewrite badd_ok, bmul2_ok. cbn [toZ map]. rewrite !BigZ.spec_mul, BigZ.spec_of_Z.
  f_equal. f_equal. f_equal. ring.
Qed.
Fixpoint bsumabs (c : list bigZ) : bigZ := match c with [] => BigZ.zero | a :: c' => BigZ.add (BigZ.abs a) (bsumabs c') end.
Lemma bsumabs_ok c : BigZ.to_Z (bsumabs c) = sumabs (toZ c).
Proof. induction c as [|a c IH]; cbn [bsumabs toZ map sumabs]; [apply BigZ.spec_0|]. rewrite BigZ.spec_add, BigZ.spec_abs, IH. reflexivity. Qed.

Definition bconvZ (A B E : Z) (l : list bigZ) := bconv (BigZ.of_Z A) (BigZ.of_Z B) (BigZ.of_Z E) l.
Lemma bconvZ_ok A B E l : conv A B E (toZ l) = (toZ (fst (bconvZ A B E l)), BigZ.to_Z (snd (bconvZ A B E l))).
Proof. unfold bconvZ. rewrite <- bconv_ok, !BigZ.spec_of_Z. reflexivity. Qed.

Definition bcheb_check (A B E : Z) (l : list bigZ) (num den : Z) : bool :=
  let '(c, s) := bconvZ A B E l in
  ((0 <? A) && (0 <? E) && (0 <? den))%Z && BigZ.leb (BigZ.mul (bsumabs c) (BigZ.of_Z den)) (BigZ.mul (BigZ.of_Z num) s).
Lemma bcheb_check_ok A B E l num den : bcheb_check A B E l num den = true -> cheb_check A B E (toZ l) num den = true.
Proof.
  unfold bcheb_check, cheb_check. rewrite bconvZ_ok. destruct (bconvZ A B E l) as [c s]. cbn [fst snd].
  rewrite BigZ.spec_leb, !BigZ.spec_mul, !BigZ.spec_of_Z, bsumabs_ok. auto.
Qed.
Definition bcheb_pos (A B E : Z) (l : list bigZ) (num den : Z) : bool :=
  let '(c, s) := bconvZ A B E l in
  match c with
  | c0 :: r => ((0 <? A) && (0 <? E) && (0 <? den))%Z && BigZ.leb (BigZ.mul (BigZ.of_Z num) s) (BigZ.mul (BigZ.sub c0 (bsumabs r)) (BigZ.of_Z den))
  | [] => false
  end.
Lemma bcheb_pos_ok A B E l num den : bcheb_pos A B E l num den = true -> cheb_pos A B E (toZ l) num den = true.
Proof.
  unfold bcheb_pos, cheb_pos. rewrite bconvZ_ok. destruct (bconvZ A B E l) as [[|c0 r] s]; cbn [fst snd toZ map]; [auto|].
  rewrite BigZ.spec_leb, !BigZ.spec_mul, !BigZ.spec_of_Z, BigZ.spec_sub, bsumabs_ok. auto.
Qed.

(** ** a list of consecutive intervals (A,B,E) covering [lo, hi] *)
Local Open Scope R_scope.
Definition iv := (Z * Z * Z)%type.
Definition inside (i : iv) (x : R) : Prop :=
  let '(A, B, E) := i in (IZR B - IZR A) / IZR E <= x <= (IZR B + IZR A) / IZR E.
(** [ln/ld] is the left end of the first, [hn/hd] the right end of the last, and consecutive ends meet *)
Fixpoint covers (ln ld hn hd : Z) (l : list iv) : bool :=
  match l with
  | [] => ((0 <? ld) && (0 <? hd) && (hn * ld <=? ln * hd))%Z
  | (A, B, E) :: l' => ((0 <? ld) && (0 <? E) && ((B - A) * ld <=? ln * E) && covers (B + A) E hn hd l')%Z
  end.
Lemma covers_ok l : forall ln ld hn hd, covers ln ld hn hd l = true -> l <> [] ->
  forall x, IZR ln / IZR ld <= x <= IZR hn / IZR hd -> exists i, In i l /\ inside i x.
Proof.
  induction l as [|[[A B] E] l IH]; intros ln ld hn hd H N x Hx; [contradiction|]. cbn [covers] in H.
  rewrite !andb_true_iff, !Z.ltb_lt, Z.leb_le in H. destruct H as [[[H1 H2] H3] H4].
  assert (0 < IZR ld) by (apply (IZR_lt 0); lia). assert (0 < IZR E) by (apply (IZR_lt 0); lia).
  assert (LO : (IZR B - IZR A) / IZR E <= x).
  { apply Rle_trans with (IZR ln / IZR ld); [|lra]. apply IZR_le in H3. rewrite !mult_IZR, minus_IZR in H3.
    apply (Rmult_le_reg_r (IZR E * IZR ld)); [nra|]. replace ((IZR B - IZR A) / IZR E * (IZR E * IZR ld)) with ((IZR B - IZR A) * IZR ld) by (field; lra).
    replace (IZR ln / IZR ld * (IZR E * IZR ld)) with (IZR ln * IZR E) by (field; lra). exact H3. }
  destruct (Rle_dec x ((IZR B + IZR A) / IZR E)) as [L|L].
  - exists (A, B, E). split; [left; reflexivity|]. split; assumption.
  - destruct l as [|i l].
    + cbn [covers] in H4. rewrite !andb_true_iff, !Z.ltb_lt, Z.leb_le in H4. destruct H4 as [[H5 H6] H7].
      exists (A, B, E). split; [left; reflexivity|]. split; [exact LO|]. exfalso. apply L.
      apply Rle_trans with (IZR hn / IZR hd); [lra|]. assert (0 < IZR hd) by (apply (IZR_lt 0); lia).
      apply IZR_le in H7. rewrite !mult_IZR, plus_IZR in H7.
      apply (Rmult_le_reg_r (IZR E * IZR hd)); [nra|]. replace ((IZR B + IZR A) / IZR E * (IZR E * IZR hd)) with ((IZR B + IZR A) * IZR hd) by (field; lra).
      replace (IZR hn / IZR hd * (IZR E * IZR hd)) with (IZR hn * IZR E) by (field; lra). exact H7.
    + destruct (IH (B + A)%Z E hn hd H4 ltac:(discriminate) x) as (j & Hj & Ij); [rewrite plus_IZR; lra|].
      exists j. split; [right; exact Hj|exact Ij].
Qed.

(** |p| <= num/den on [ln/ld, hn/hd] *)
Definition pbound (ln ld hn hd : Z) (l : list iv) (p : list bigZ) (num den : Z) : bool :=
  (negb (match l with [] => true | _ => false end) && covers ln ld hn hd l && forallb (fun i => let '(A, B, E) := i in bcheb_check A B E p num den) l)%bool.
Theorem pbound_ok ln ld hn hd l p num den : pbound ln ld hn hd l p num den = true ->
  forall x, IZR ln / IZR ld <= x <= IZR hn / IZR hd -> Rabs (pz (toZ p) x) <= IZR num / IZR den.
Proof.
  unfold pbound. rewrite !andb_true_iff, forallb_forall. intros [[N C] F] x Hx.
  destruct (covers_ok l ln ld hn hd C ltac:(intros ->; discriminate) x Hx) as ([[A B] E] & Hi & Ii).
  specialize (F _ Hi). apply bcheb_check_ok in F. exact (cheb_bound _ _ _ _ _ _ F x Ii).
Qed.
(** num/den <= p *)
Definition plower (ln ld hn hd : Z) (l : list iv) (p : list bigZ) (num den : Z) : bool :=
  (negb (match l with [] => true | _ => false end) && covers ln ld hn hd l && forallb (fun i => let '(A, B, E) := i in bcheb_pos A B E p num den) l)%bool.
Theorem plower_ok ln ld hn hd l p num den : plower ln ld hn hd l p num den = true ->
  forall x, IZR ln / IZR ld <= x <= IZR hn / IZR hd -> IZR num / IZR den <= pz (toZ p) x.
Proof.
  unfold plower. rewrite !andb_true_iff, forallb_forall. intros [[N C] F] x Hx.
  destruct (covers_ok l ln ld hn hd C ltac:(intros ->; discriminate) x Hx) as ([[A B] E] & Hi & Ii).
  specialize (F _ Hi). apply bcheb_pos_ok in F. exact (cheb_lower _ _ _ _ _ _ F x Ii).
Qed.

(** error of a rational function P/Q against W/DW: for each interval
    |DW P - Q W| <= (en/ed) DW min Q *)
Definition ratio_iv (diff q : list bigZ) (DW en ed : Z) (i : iv) : bool :=
  let '(A, B, E) := i in
  let '(cq, sq) := bconvZ A B E q in
  let '(c, s) := bconvZ A B E diff in
  match cq with
  | [] => false
  | c0 :: r =>
     let qn := BigZ.sub c0 (bsumabs r) in
     ((0 <? A) && (0 <? E))%Z && BigZ.ltb BigZ.zero qn &&
     BigZ.leb (BigZ.mul (BigZ.mul (bsumabs c) sq) (BigZ.of_Z ed)) (BigZ.mul (BigZ.mul (BigZ.mul (BigZ.of_Z en) (BigZ.of_Z DW)) qn) s)
  end.
Lemma conv_pos A B E l : (0 < E)%Z -> (0 < snd (conv A B E l))%Z.
Proof. intros H. apply (conv_ok A B E l 0 H). Qed.
Lemma ratio_iv_ok diff q DW en ed i : (0 < DW)%Z -> (0 < ed)%Z -> ratio_iv diff q DW en ed i = true -> forall x, inside i x ->
  0 < pz (toZ q) x /\ Rabs (pz (toZ diff) x) <= IZR en / IZR ed * (IZR DW * pz (toZ q) x).
Proof.
  destruct i as [[A B] E]. unfold ratio_iv, inside. intros HDW Hed.
  pose proof (bconvZ_ok A B E q) as Kq. pose proof (bconvZ_ok A B E diff) as Kd.
  destruct (bconvZ A B E q) as [cq sq], (bconvZ A B E diff) as [c s]. cbn [fst snd] in *.
  destruct cq as [|c0 r]; [discriminate|]. rewrite !andb_true_iff, BigZ.spec_ltb, BigZ.spec_leb, !BigZ.spec_mul, BigZ.spec_sub, !bsumabs_ok, !BigZ.spec_of_Z, BigZ.spec_0, Z.ltb_lt, Z.leb_le, !Z.ltb_lt.
  intros [[[HA HE] Hq] HC] x Hx. cbn [toZ map] in Kq. change (map BigZ.to_Z r) with (toZ r) in Kq.
  set (d0 := BigZ.to_Z c0) in *. set (zr := toZ r) in *. set (zs := BigZ.to_Z s) in *. set (zq := BigZ.to_Z sq) in *. set (zc := toZ c) in *.
  pose proof (conv_pos A B E (toZ q) HE) as Sq. rewrite Kq in Sq. cbn [snd] in Sq.
  pose proof (conv_pos A B E (toZ diff) HE) as Sd. rewrite Kd in Sd. cbn [snd] in Sd.
  assert (L : IZR (d0 - sumabs zr) / IZR zq <= pz (toZ q) x).
  { apply (cheb_lower A B E (toZ q) (d0 - sumabs zr) zq); [|exact Hx]. unfold cheb_pos. rewrite Kq.
    rewrite !andb_true_iff, !Z.ltb_lt, Z.leb_le. repeat split; try lia. }
  assert (U : Rabs (pz (toZ diff) x) <= IZR (sumabs zc) / IZR zs).
  { apply (cheb_bound A B E (toZ diff) (sumabs zc) zs); [|exact Hx]. unfold cheb_check. rewrite Kd.
    rewrite !andb_true_iff, !Z.ltb_lt, Z.leb_le. repeat split; lia. }
  assert (0 < IZR (d0 - sumabs zr)) by (apply (IZR_lt 0); lia). assert (0 < IZR zq) by (apply (IZR_lt 0); lia).
  assert (0 < IZR zs) by (apply (IZR_lt 0); lia). assert (0 < IZR DW) by (apply (IZR_lt 0); lia). assert (0 < IZR ed) by (apply (IZR_lt 0); lia).
  assert (0 < IZR (d0 - sumabs zr) / IZR zq) by (apply Rdiv_lt_0_compat; lra).
  split; [lra|]. eapply Rle_trans; [exact U|].
  apply IZR_le in HC. rewrite !mult_IZR in HC. set (qn := IZR (d0 - sumabs zr)) in *.
  assert (SA : 0 <= IZR (sumabs zc)). { apply IZR_le. clear. induction zc as [|a zc IH]; cbn [sumabs]; lia. }
  assert (ENN : 0 <= IZR en).
  { apply Rnot_lt_le. intros NEG. assert (0 <= IZR (sumabs zc) * IZR zq * IZR ed) by (apply Rmult_le_pos; [nra|lra]).
    assert (0 < IZR DW * qn * IZR zs) by (apply Rmult_lt_0_compat; [nra|lra]). nra. }
  apply Rle_trans with (IZR en / IZR ed * (IZR DW * (qn / IZR zq))).
  - apply (Rmult_le_reg_r (IZR zs * IZR ed * IZR zq)); [apply Rmult_lt_0_compat; [nra|lra]|].
    replace (IZR (sumabs zc) / IZR zs * (IZR zs * IZR ed * IZR zq)) with (IZR (sumabs zc) * IZR zq * IZR ed) by (field; lra).
    replace (IZR en / IZR ed * (IZR DW * (qn / IZR zq)) * (IZR zs * IZR ed * IZR zq)) with (IZR en * IZR DW * qn * IZR zs) by (field; lra). exact HC.
  - apply Rmult_le_compat_l; [apply Rdiv_le_0_compat; lra|]. apply Rmult_le_compat_l; lra.
Qed.
Definition ratio_list (ln ld hn hd : Z) (l : list iv) (P Q W : list Z) (DW en ed : Z) : bool :=
  let bq := ofZl Q in
  let diff := bsub (bscal (BigZ.of_Z DW) (ofZl P)) (bmul bq (ofZl W)) in
  ((0 <? DW) && (0 <? ed))%Z && negb (match l with [] => true | _ => false end) && covers ln ld hn hd l && forallb (ratio_iv diff bq DW en ed) l.
Theorem ratio_list_ok ln ld hn hd l P Q W DW en ed : ratio_list ln ld hn hd l P Q W DW en ed = true ->
  forall x, IZR ln / IZR ld <= x <= IZR hn / IZR hd ->
  0 < pz Q x /\ Rabs (pz P x / pz Q x - pz W x / IZR DW) <= IZR en / IZR ed.
Proof.
  unfold ratio_list. rewrite !andb_true_iff, !Z.ltb_lt, forallb_forall. intros [[[[HD He] N] C] F] x Hx.
  destruct (covers_ok l ln ld hn hd C ltac:(intros ->; discriminate) x Hx) as (i & Hi & Ii). specialize (F _ Hi).
  destruct (ratio_iv_ok _ _ _ _ _ _ HD He F x Ii) as [Q0 U]. rewrite bsub_ok, bscal_ok, bmul_ok, !toZ_ofZl, BigZ.spec_of_Z in U.
  rewrite toZ_ofZl in Q0. rewrite pz_sub, pz_scal, pz_mul in U. split; [exact Q0|].
  assert (0 < IZR DW) by (apply (IZR_lt 0); lia).
  set (p := pz P x) in *. set (q := pz Q x) in *. set (w := pz W x) in *.
  replace (p / q - w / IZR DW) with ((IZR DW * p - q * w) * / (q * IZR DW)) by (field; lra).
  rewrite Rabs_mult, (Rabs_pos_eq (/ _)) by (left; apply Rinv_0_lt_compat; nra).
  apply (Rmult_le_reg_r (q * IZR DW)); [nra|]. rewrite Rmult_assoc, Rinv_l, Rmult_1_r by nra.
  replace (q * IZR DW) with (IZR DW * q) by ring. exact U.
Qed.
(** dyadic subdivision of [lo/E0, hi/E0] into m equal parts *)
Fixpoint split_iv (m : Z) (lo hi E0 : Z) (k : nat) : list iv :=
  match k with O => [] | S k' => split_iv m lo hi E0 k' ++ [((hi - lo), (2 * lo * m + (2 * Z.of_nat k' + 1) * (hi - lo)), (2 * m * E0))%Z] end.
