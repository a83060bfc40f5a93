(** * Checked reference polynomials for the polylogarithms and checked
      rational-approximation errors.  Nothing here mentions the code. *)
From Coq Require Import Reals Lra Lia Psatz ZArith List Bool.
From Coquelicot Require Import Coquelicot.
From Verif Require Import Polylog Polylog_series Cheb.
Import ListNotations.
Local Open Scope R_scope.

(** ** an (unverified) generator: T_K(m x + n) and the quotient (T_K(m+n) - T_K(mx+n))/(1-x) *)
Fixpoint cheb_gen (K : nat) (m n : Z) (a b : list Z) : list Z :=
  match K with
  | O => a
  | S k => cheb_gen k m n b (psub (padd (pscal (2 * n) b) (0%Z :: pscal (2 * m) b)) a)
  end.
Fixpoint prefix_sums (s : Z) (l : list Z) : list Z :=
  match l with [] => [] | a :: l' => (s + a)%Z :: prefix_sums (s + a) l' end.
Definition ref_T K m n := cheb_gen K m n [1%Z] [n; m].
Definition ref_D K m n : Z := fold_right Z.add 0%Z (ref_T K m n).
Definition ref_zs K m n : list Z :=
  let t := ref_T K m n in removelast (prefix_sums 0 (psub [ref_D K m n] t)).

(** ** common denominators *)
Fixpoint wz (n : nat) (M k : Z) (zs : list Z) : list Z :=
  match zs with [] => [] | z :: zs' => (z * (M / k) ^ Z.of_nat n)%Z :: wz n M (k + 1) zs' end.
Fixpoint div_all (M k : Z) (zs : list Z) : bool :=
  match zs with [] => true | _ :: zs' => ((M mod k =? 0)%Z && (0 <? k)%Z && div_all M (k + 1) zs')%bool end.
Lemma wz_ok n M D zs : (0 < D)%Z -> (0 < M)%Z -> forall k, div_all M k zs = true -> forall x,
  pz (wz n M k zs) x = IZR (D * M ^ Z.of_nat n) * hornerZ (wl (Z.of_nat n) D k zs) x.
Proof.
  intros HD HM. induction zs as [|z zs IH]; intros k H x; cbn [wz pz wl hornerZ]; [ring|].
  cbn [div_all] in H. rewrite !andb_true_iff, Z.eqb_eq, Z.ltb_lt in H. destruct H as [[H1 H2] H3].
  rewrite (IH _ H3). rewrite !mult_IZR.
  assert (E : (M = k * (M / k))%Z) by (apply Z.div_exact; lia).
  assert (IZR (k ^ Z.of_nat n) <> 0) by (apply IZR_neq; apply Z.pow_nonzero; lia).
  assert (IZR D <> 0) by (apply IZR_neq; lia).
  replace (IZR (M ^ Z.of_nat n)) with (IZR (k ^ Z.of_nat n) * IZR ((M / k) ^ Z.of_nat n)).
  - field. auto.
  - rewrite <- mult_IZR, <- Z.pow_mul_l, <- E. reflexivity.
Qed.
(** the reference polynomial of order n: coefficients and denominator *)
Record refp := { rf_zs : list Z; rf_D : Z; rf_M : Z }.
Definition rf_poly (r : refp) (n : nat) : list Z := wz n (rf_M r) 1 (rf_zs r).
Definition rf_den (r : refp) (n : nat) : Z := (rf_D r * rf_M r ^ Z.of_nat n)%Z.
(** [en/ed] bounds the error relative to x on [(B-A)/E,(B+A)/E] *)
Definition ref_check (r : refp) (A B E num den en ed : Z) : bool :=
  ((0 <? rf_D r) && (0 <? rf_M r) && (0 <? ed) && div_all (rf_M r) 1 (rf_zs r)
   && (B - A <=? 0) && (0 <=? B + A) && (B + A <? E) && (0 <=? num)
   && cheb_check A B E (psub (pmul [1; -1] (rf_zs r)) [rf_D r]) num den
   && (num * E * ed <=? en * den * rf_D r * (E - B - A)))%Z%bool.
Theorem ref_bound r A B E num den en ed : ref_check r A B E num den en ed = true ->
  forall n x, (1 <= n)%nat -> (IZR B - IZR A) / IZR E <= x <= (IZR B + IZR A) / IZR E ->
  Rabs (x * (pz (rf_poly r n) x / IZR (rf_den r n)) - ReLi n x) <= IZR en / IZR ed * Rabs x.
Proof.
  unfold ref_check. rewrite !andb_true_iff, !Z.ltb_lt, !Z.leb_le.
  intros [[[[[[[[[HD HM] Hed] Hdiv] H1] H2] H3] Hn] HC] HE] n x Hn1 Hx.
  assert (C2 := HC). unfold cheb_check in C2. destruct (conv A B E _) as [c s]. rewrite !andb_true_iff, !Z.ltb_lt in C2. destruct C2 as [[[HA HE0] Hden] _].
  assert (E0 : 0 < IZR E) by (apply (IZR_lt 0); lia). assert (D0 : 0 < IZR (rf_D r)) by (apply (IZR_lt 0); lia).
  assert (d0 : 0 < IZR den) by (apply (IZR_lt 0); lia). assert (ed0 : 0 < IZR ed) by (apply (IZR_lt 0); lia).
  assert (BE : (IZR B + IZR A) / IZR E < 1). { apply Rlt_div_l; [exact E0|]. rewrite Rmult_1_l, <- plus_IZR. apply IZR_lt. lia. }
  pose proof (ref_correct (rf_zs r) (rf_D r) (IZR en / IZR ed) ((IZR B - IZR A) / IZR E) ((IZR B + IZR A) / IZR E) HD) as RC.
  replace (pz (rf_poly r n) x / IZR (rf_den r n)) with (hornerZ (wl (Z.of_nat n) (rf_D r) 1 (rf_zs r)) x).
  - apply RC; auto.
    + split.
      * apply Rle_div_l; [lra|]. rewrite Rmult_0_l, <- minus_IZR. apply IZR_le. lia.
      * apply Rdiv_le_0_compat; [rewrite <- plus_IZR; apply IZR_le; lia|lra].
    + intros y Hy. pose proof (cheb_bound _ _ _ _ _ _ HC y Hy) as CB. rewrite pz_sub, pz_mul in CB. cbn [pz] in CB.
      pose proof (wz_ok 0 (rf_M r) (rf_D r) (rf_zs r) HD HM 1 Hdiv y) as W0. cbn [Z.of_nat] in W0. rewrite Z.pow_0_r, Z.mul_1_r in W0.
      assert (W1 : pz (rf_zs r) y = IZR (rf_D r) * hornerZ (wl 0 (rf_D r) 1 (rf_zs r)) y).
      { rewrite <- W0. clear. generalize 1%Z. induction (rf_zs r) as [|z zs IH]; intros k; cbn [wz pz]; [reflexivity|]. rewrite <- IH. rewrite Z.pow_0_r, Z.mul_1_r. reflexivity. }
      rewrite W1 in CB. set (h := hornerZ _ y) in *. assert (Y1 : 0 < 1 - y) by lra.
      assert (NB : IZR num / IZR den <= IZR en / IZR ed * (IZR (rf_D r) * (1 - (IZR B + IZR A) / IZR E))).
      { apply IZR_le in HE. rewrite !mult_IZR, !minus_IZR in HE.
        apply (Rmult_le_reg_r (IZR den * IZR ed * IZR E)); [apply Rmult_lt_0_compat; [nra|lra]|].
        replace (IZR num / IZR den * (IZR den * IZR ed * IZR E)) with (IZR num * IZR E * IZR ed) by (field; lra).
        replace (IZR en / IZR ed * (IZR (rf_D r) * (1 - (IZR B + IZR A) / IZR E)) * (IZR den * IZR ed * IZR E))
          with (IZR en * IZR den * IZR (rf_D r) * (IZR E - IZR B - IZR A)) by (field; lra). exact HE. }
      assert (ENN : 0 <= IZR en / IZR ed).
      { apply Rnot_lt_le. intros NEG. pose proof (Rdiv_le_0_compat (IZR num) (IZR den) ltac:(apply IZR_le; lia) d0).
        assert (0 < IZR (rf_D r) * (1 - (IZR B + IZR A) / IZR E)) by (apply Rmult_lt_0_compat; lra). nra. }
      replace (h - / (1 - y)) with (((1 + y * (-1 + y * 0)) * (IZR (rf_D r) * h) - (IZR (rf_D r) + y * 0)) * / (IZR (rf_D r) * (1 - y))) by (field; lra).
      rewrite Rabs_mult, (Rabs_pos_eq (/ _)) by (left; apply Rinv_0_lt_compat; nra).
      apply (Rmult_le_reg_r (IZR (rf_D r) * (1 - y))); [nra|]. rewrite Rmult_assoc, Rinv_l, Rmult_1_r by nra.
      eapply Rle_trans; [exact CB|]. eapply Rle_trans; [exact NB|]. apply Rmult_le_compat_l; [exact ENN|]. apply Rmult_le_compat_l; lra.
  - unfold rf_poly, rf_den. rewrite (wz_ok n (rf_M r) (rf_D r)) by auto.
    assert (IZR (rf_D r * rf_M r ^ Z.of_nat n) <> 0). { apply IZR_neq. assert (0 < rf_M r ^ Z.of_nat n)%Z by (apply Z.pow_pos_nonneg; lia). nia. }
    field. assumption.
Qed.

(** ** error of a rational function against a reference polynomial W/DW *)
Definition ratio_check (A B E : Z) (P Q W : list Z) (DW qn qd num den en ed : Z) : bool :=
  ((0 <? DW) && (0 <? qn) && (0 <? qd) && (0 <? ed) && (0 <=? num)
   && cheb_pos A B E Q qn qd
   && cheb_check A B E (psub (pscal DW P) (pmul Q W)) num den
   && (num * qd * ed <=? en * den * qn * DW))%Z%bool.
Theorem ratio_bound A B E P Q W DW qn qd num den en ed : ratio_check A B E P Q W DW qn qd num den en ed = true ->
  forall x, (IZR B - IZR A) / IZR E <= x <= (IZR B + IZR A) / IZR E ->
  0 < pz Q x /\ Rabs (pz P x / pz Q x - pz W x / IZR DW) <= IZR en / IZR ed.
Proof.
  unfold ratio_check. rewrite !andb_true_iff, !Z.ltb_lt, !Z.leb_le.
  intros [[[[[[[HDW Hqn] Hqd] Hed] Hnum] HP] HC] HE] x Hx.
  pose proof (cheb_lower _ _ _ _ _ _ HP x Hx) as L. pose proof (cheb_bound _ _ _ _ _ _ HC x Hx) as U.
  assert (C2 := HC). unfold cheb_check in C2. destruct (conv A B E _) as [c s]. rewrite !andb_true_iff, !Z.ltb_lt in C2. destruct C2 as [[[HA HE0] Hden] _].
  rewrite pz_sub, pz_scal, pz_mul in U.
  assert (0 < IZR DW) by (apply (IZR_lt 0); lia). assert (0 < IZR qn) by (apply (IZR_lt 0); lia). assert (0 < IZR qd) by (apply (IZR_lt 0); lia).
  assert (0 < IZR ed) by (apply (IZR_lt 0); lia). assert (0 < IZR den) by (apply (IZR_lt 0); lia). assert (0 <= IZR num) by (apply IZR_le; lia).
  assert (0 < IZR qn / IZR qd) by (apply Rdiv_lt_0_compat; lra).
  set (p := pz P x) in *. set (q := pz Q x) in *. set (w := pz W x) in *.
  split; [lra|].
  replace (p / q - w / IZR DW) with ((IZR DW * p - q * w) * / (q * IZR DW)) by (field; lra).
  rewrite Rabs_mult, (Rabs_pos_eq (/ _)) by (left; apply Rinv_0_lt_compat; nra).
  apply (Rmult_le_reg_r (q * IZR DW)); [nra|]. rewrite Rmult_assoc, Rinv_l, Rmult_1_r by nra.
  eapply Rle_trans; [exact U|].
  apply Rle_trans with (IZR en / IZR ed * (IZR qn / IZR qd * IZR DW)).
  - apply IZR_le in HE. rewrite !mult_IZR in HE.
    apply (Rmult_le_reg_r (IZR den * IZR ed * IZR qd)); [apply Rmult_lt_0_compat; [nra|lra]|].
    replace (IZR num / IZR den * (IZR den * IZR ed * IZR qd)) with (IZR num * IZR qd * IZR ed) by (field; lra).
    replace (IZR en / IZR ed * (IZR qn / IZR qd * IZR DW) * (IZR den * IZR ed * IZR qd)) with (IZR en * IZR den * IZR qn * IZR DW) by (field; lra).
    exact HE.
  - assert (ENN : 0 <= IZR en / IZR ed).
    { apply IZR_le in HE. rewrite !mult_IZR in HE. apply Rdiv_le_0_compat; [|lra]. apply Rnot_lt_le. intros NEG.
      assert (0 <= IZR num * IZR qd * IZR ed) by (apply Rmult_le_pos; [nra|lra]).
      assert (0 < IZR den * IZR qn * IZR DW) by (apply Rmult_lt_0_compat; [nra|lra]). nra. }
    apply Rmult_le_compat_l; [exact ENN|]. apply Rmult_le_compat_r; lra.
Qed.

(** the same with the intermediate bounds computed *)
Definition ratio_auto (A B E : Z) (P Q W : list Z) (DW en ed : Z) : bool :=
  let '(cq, sq) := conv A B E Q in
  let '(c, s) := conv A B E (psub (pscal DW P) (pmul Q W)) in
  match cq with
  | [] => false
  | c0 :: r => ratio_check A B E P Q W DW (c0 - sumabs r) sq (sumabs c) s en ed
  end.
Theorem ratio_auto_bound A B E P Q W DW en ed : ratio_auto A B E P Q W DW en ed = true ->
  forall x, (IZR B - IZR A) / IZR E <= x <= (IZR B + IZR A) / IZR E ->
  0 < pz Q x /\ Rabs (pz P x / pz Q x - pz W x / IZR DW) <= IZR en / IZR ed.
Proof.
  unfold ratio_auto. destruct (conv A B E Q) as [[|c0 r] sq]; [destruct (conv A B E _); discriminate|].
  destruct (conv A B E _) as [c s]. apply ratio_bound.
Qed.

(** ** affine substitution: pz (fst (acomp l u v e)) x = snd * pz l ((u + v x)/e) *)
Fixpoint acomp (l : list Z) (u v e : Z) : list Z * Z :=
  match l with
  | [] => ([], 1%Z)
  | a :: l' => let '(p, s) := acomp l' u v e in (padd [a * e * s]%Z (pmul [u; v] p), (e * s)%Z)
  end.
Lemma acomp_ok l u v e x : (0 < e)%Z ->
  (0 < snd (acomp l u v e))%Z /\ pz (fst (acomp l u v e)) x = IZR (snd (acomp l u v e)) * pz l ((IZR u + IZR v * x) / IZR e).
Proof.
  intros He. assert (E0 : IZR e <> 0) by (apply IZR_neq; lia).
  induction l as [|a l [S IH]]; [cbn; split; [lia|ring]|]. cbn [acomp pz].
  destruct (acomp l u v e) as [p s]. cbn [fst snd] in *. split; [nia|].
  rewrite pz_add, pz_mul, IH. cbn [pz]. rewrite !mult_IZR. field. exact E0.
Qed.

(** positivity alone *)
Lemma cheb_positive A B E l qn qd : (0 <? qn)%Z = true -> (0 <? qd)%Z = true -> cheb_pos A B E l qn qd = true ->
  forall x, (IZR B - IZR A) / IZR E <= x <= (IZR B + IZR A) / IZR E -> 0 < pz l x.
Proof.
  rewrite !Z.ltb_lt. intros H1 H2 H3 x Hx. eapply Rlt_le_trans; [|apply (cheb_lower _ _ _ _ _ _ H3 x Hx)].
  apply Rdiv_lt_0_compat; apply (IZR_lt 0); lia.
Qed.

(** ** the two reference families: [0,1/2] and [-1,0] *)
Definition lcm_to (k : nat) : Z := fold_left (fun a i => Z.lcm a (Z.of_nat i)) (seq 1 k) 1%Z.
Definition ref_half (K : nat) : refp := {| rf_zs := ref_zs K 4 (-1); rf_D := ref_D K 4 (-1); rf_M := lcm_to K |}.
Definition ref_neg (K : nat) : refp := {| rf_zs := ref_zs K 2 1; rf_D := ref_D K 2 1; rf_M := lcm_to K |}.
Definition refH := Eval vm_compute in ref_half 30.
Definition refN := Eval vm_compute in ref_neg 30.
Definition refH2 := Eval vm_compute in ref_half 52.

Lemma refH_ok : ref_check refH 1 1 4 1 1 1 (10 ^ 22) = true.
Proof. vm_compute. reflexivity. Qed.
Lemma refN_ok : ref_check refN 1 (-1) 2 1 1 1 (10 ^ 22) = true.
Proof. vm_compute. reflexivity. Qed.
Lemma refH2_ok : ref_check refH2 1 1 4 1 1 1 (10 ^ 39) = true.
Proof. vm_compute. reflexivity. Qed.
