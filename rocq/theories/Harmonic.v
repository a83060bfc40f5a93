(** * Harmonic numbers: the asymptotic expansion of harmonic.cpp, telescoped from n = 20 *)
From Coq Require Import Reals Lra Lia Psatz ZArith List Bool.
From Coquelicot Require Import Coquelicot.
From Interval Require Import Tactic.
From Verif Require Import Cheb.
Import ListNotations.
Local Open Scope R_scope.

Fixpoint Pf (l : list Z) (k : nat) (t : R) : R := match l with [] => 0 | c :: l' => IZR c * t ^ k + Pf l' (S (S k)) t end.
Fixpoint Pd (l : list Z) (k : nat) (t : R) : R := match l with [] => 0 | c :: l' => IZR c * (INR k * t ^ pred k) + Pd l' (S (S k)) t end.
Fixpoint Pq (l : list Z) (k : nat) (t : R) : R := match l with [] => 0 | c :: l' => IZR c * (INR k * t ^ pred k / (1 + t) ^ S k) + Pq l' (S (S k)) t end.
Lemma Pf_derive l : forall k t, is_derive (Pf l k) t (Pd l k t).
Proof.
  induction l as [|c l IH]; intros k t; cbn [Pf Pd].
  - apply (is_derive_const (V := R_NormedModule)).
  - apply (is_derive_plus (fun t => IZR c * t ^ k) (Pf l (S (S k)))); [|apply IH]. auto_derive; [trivial|]. ring.
Qed.
Lemma Pq_derive l : forall k t, (1 <= k)%nat -> -1 < t -> is_derive (fun t => Pf l k (t / (1 + t))) t (Pq l k t).
Proof.
  induction l as [|c l IH]; intros k t Hk Ht; cbn [Pf Pq].
  - apply (is_derive_const (V := R_NormedModule)).
  - apply (is_derive_plus (fun t => IZR c * (t / (1 + t)) ^ k) (fun t => Pf l (S (S k)) (t / (1 + t)))); [|apply IH; [lia|exact Ht]].
    auto_derive; [lra|]. destruct k as [|k]; [lia|]. cbn [pred]. unfold Rdiv. rewrite Rpow_mult_distr. rewrite <- !pow_inv. cbn [pow]. set (a := t ^ k). set (b := (/ (1 + t)) ^ k). field. lra.
Qed.
Fixpoint mono (k : nat) (c : Z) : list Z := match k with O => [c] | S k' => 0%Z :: mono k' c end.
Lemma mono_ok k c t : pz (mono k c) t = IZR c * t ^ k.
Proof. induction k as [|k IH]; cbn [mono pz pow]; [ring|]. rewrite IH. ring. Qed.
Fixpoint wp (k : nat) : list Z := match k with O => [1%Z] | S k' => pmul [1; 1]%Z (wp k') end.
Lemma wp_ok k t : pz (wp k) t = (1 + t) ^ k.
Proof. induction k as [|k IH]; [cbn; ring|]. cbn [wp]. rewrite pz_mul, IH. cbn [pz pow]. ring. Qed.
Fixpoint PdL (l : list Z) (k : nat) : list Z := match l with [] => [] | c :: l' => padd (mono (pred k) (c * Z.of_nat k)) (PdL l' (S (S k))) end.
Fixpoint PqL (l : list Z) (k : nat) : list Z := match l with [] => [] | c :: l' => padd (pmul (mono (pred k) (c * Z.of_nat k)) (wp (17 - S k))) (PqL l' (S (S k))) end.
Lemma PdL_ok l : forall k t, pz (PdL l k) t = Pd l k t.
Proof. induction l as [|c l IH]; intros k t; cbn [PdL Pd]; [reflexivity|]. rewrite pz_add, mono_ok, IH, mult_IZR, <- INR_IZR_INZ. ring. Qed.
Lemma PqL_ok l : forall k t, -1 < t -> (k + 2 * length l <= 18)%nat -> pz (PqL l k) t = (1 + t) ^ 17 * Pq l k t.
Proof.
  induction l as [|c l IH]; intros k t Ht Hk; cbn [PqL Pq length] in *; [cbn [pz]; ring|]. rewrite pz_add, pz_mul, mono_ok, wp_ok, IH, mult_IZR, <- INR_IZR_INZ by (lra || lia).
  replace ((1 + t) ^ 17) with ((1 + t) ^ (17 - S k) * (1 + t) ^ S k) by (rewrite <- pow_add; f_equal; lia). assert ((1 + t) ^ S k <> 0) by (apply pow_nonzero; lra). field. assumption.
Qed.
(** numerators c_i 10^19 *)
Definition cs : list Z := [833333333333333330; -83333333333333333; 39682539682539683; -41666666666666667; 75757575757575758; -210927960927960930; 833333333333333330; -4432598039215686300]%Z.
Definition W : R := 10 ^ 19.
Definition hh (t : R) : R := ln (1 + t) - t / (1 + t) / 2 - t / 2 - Pf cs 2 (t / (1 + t)) / W + Pf cs 2 t / W.
Definition hd (t : R) : R := / (1 + t) - / (1 + t) ^ 2 / 2 - / 2 - Pq cs 2 t / W + Pd cs 2 t / W.
Lemma W_pos : 0 < W. Proof. unfold W. lra. Qed.
Lemma hh_derive t : -1 < t -> is_derive hh t (hd t).
Proof.
  intros H. pose proof W_pos. unfold hh, hd.
  apply (is_derive_plus (fun t => ln (1 + t) - t / (1 + t) / 2 - t / 2 - Pf cs 2 (t / (1 + t)) / W) (fun t => Pf cs 2 t / W)).
  - apply (is_derive_minus (fun t => ln (1 + t) - t / (1 + t) / 2 - t / 2) (fun t => Pf cs 2 (t / (1 + t)) / W)).
    + auto_derive; [lra|]. field. lra.
    + apply (is_derive_ext (fun t => / W * Pf cs 2 (t / (1 + t)))); [intros s; exact (Rmult_comm _ _)|]. evar_last; [apply is_derive_scal, Pq_derive; [lia|exact H]|]. unfold Rdiv. apply Rmult_comm.
  - apply (is_derive_ext (fun t => / W * Pf cs 2 t)); [intros s; exact (Rmult_comm _ _)|]. evar_last; [apply is_derive_scal, Pf_derive|]. unfold Rdiv. apply Rmult_comm.
Qed.
Definition NL : list Z := let w := (10 ^ 19)%Z in
  padd (psub (psub (psub (pscal (2 * w) (wp 16)) (pscal w (wp 15))) (pscal w (wp 17))) (pscal 2 (PqL cs 2))) (pscal 2 (pmul (wp 17) (PdL cs 2))).
Lemma NL_ok t : -1 < t -> pz NL t = 2 * W * (1 + t) ^ 17 * hd t.
Proof.
  intros H. pose proof W_pos. unfold NL. rewrite !pz_add, !pz_sub, !pz_scal, !pz_mul, !wp_ok, PqL_ok, PdL_ok by (lra || (cbn; lia)). rewrite mult_IZR. replace (IZR (10 ^ 19)) with W by exact (pow_IZR 10 19). unfold hd.
  replace ((1 + t) ^ 16) with ((1 + t) ^ 17 * / (1 + t)) by (cbn [pow]; field; lra). replace ((1 + t) ^ 15) with ((1 + t) ^ 17 * / (1 + t) ^ 2) by (cbn [pow]; field; lra).
  set (p := (1 + t) ^ 17). set (q := / (1 + t)). set (r := / (1 + t) ^ 2). field. lra.
Qed.
(** sum |a_i| t^i for 0 <= t <= 1/20, scaled by 20^(length) *)
Fixpoint absb (l : list Z) : Z := match l with [] => 0 | a :: l' => (20 ^ Z.of_nat (length l') * Z.abs a + absb l')%Z end.
Lemma absb_ok l t : 0 <= t <= / 20 -> Rabs (pz l t) * 20 ^ length l <= 20 * IZR (absb l).
Proof.
  intros H. induction l as [|a l IH]; cbn [pz absb length]; [rewrite Rabs_R0; lra|]. rewrite plus_IZR, mult_IZR, abs_IZR, <- pow_IZR. cbn [pow]. set (p := 20 ^ length l) in *. assert (0 < p) by (apply pow_lt; lra).
  pose proof (Rabs_triang (IZR a) (t * pz l t)) as T. rewrite Rabs_mult, (Rabs_pos_eq t) in T by lra. pose proof (Rabs_pos (pz l t)). pose proof (Rabs_pos (IZR a)).
  assert (t * Rabs (pz l t) <= / 20 * Rabs (pz l t)) by (apply Rmult_le_compat_r; lra). assert (Rabs (IZR a + t * pz l t) * (20 * p) <= (Rabs (IZR a) + / 20 * Rabs (pz l t)) * (20 * p)) by (apply Rmult_le_compat_r; lra). nra.
Qed.
Lemma NL_shape : NL = (0 :: 0 :: skipn 2 NL)%Z. Proof. vm_compute. reflexivity. Qed.
Lemma NL_absb : (20 * absb (skipn 2 NL) <=? 130 * 20 ^ Z.of_nat (length (skipn 2 NL)))%Z = true. Proof. vm_compute. reflexivity. Qed.
Lemma hd_bound t : 0 <= t <= / 20 -> Rabs (hd t) <= 65 / W * t ^ 2.
Proof.
  intros H. pose proof W_pos as WP. pose proof (NL_ok t ltac:(lra)) as E. rewrite NL_shape in E. set (M := skipn 2 NL) in *.
  pose proof (absb_ok M t H) as B. pose proof NL_absb as C. fold M in C. apply Z.leb_le, IZR_le in C. rewrite !mult_IZR, <- pow_IZR in C. set (p := 20 ^ length M) in *. assert (PP : 0 < p) by (apply pow_lt; lra).
  assert (B2 : Rabs (pz M t) <= 130) by (apply (Rmult_le_reg_r p); lra).
  clear C. clearbody p M. change (pz (0 :: 0 :: M)%Z t) with (0 + t * (0 + t * pz M t)) in E. assert (Q : 1 <= (1 + t) ^ 17) by (apply pow_R1_Rle; lra). set (q := (1 + t) ^ 17) in *.
  assert (E2 : hd t = t ^ 2 * pz M t / (2 * W * q)) by (replace (t ^ 2 * pz M t) with (0 + t * (0 + t * pz M t)) by ring; rewrite E; field; lra).
  rewrite E2. unfold Rdiv. rewrite !Rabs_mult, (Rabs_pos_eq (t ^ 2)) by (apply pow2_ge_0). rewrite (Rabs_pos_eq (/ _)) by (left; apply Rinv_0_lt_compat; nra).
  assert (I : / (2 * W * q) <= / (2 * W)) by (apply Rinv_le_contravar; nra). assert (0 <= / (2 * W * q)) by (left; apply Rinv_0_lt_compat; nra).
  replace (65 * / W * t ^ 2) with (t ^ 2 * 130 * / (2 * W)) by (field; lra). apply Rmult_le_compat; [|assumption| |exact I].
  - apply Rmult_le_pos; [apply pow2_ge_0|apply Rabs_pos].
  - apply Rmult_le_compat_l; [apply pow2_ge_0|exact B2].
Qed.
Lemma hh_0 : hh 0 = 0.
Proof. unfold hh, cs. cbn [Pf]. rewrite Rplus_0_r, ln_1. unfold Rdiv. rewrite !Rmult_0_l. cbn [pow]. ring. Qed.
Lemma hh_bound t : 0 <= t <= / 20 -> Rabs (hh t) <= 65 / W * t ^ 3.
Proof.
  intros H. pose proof W_pos as WP. destruct (MVT_gen hh 0 t hd) as (c & Hc & E).
  - intros x Hx. rewrite Rmin_left, Rmax_right in Hx by lra. apply hh_derive. lra.
  - intros x Hx. rewrite Rmin_left, Rmax_right in Hx by lra. apply continuity_pt_filterlim, (ex_derive_continuous hh). exists (hd x). apply hh_derive. lra.
  - rewrite Rmin_left, Rmax_right in Hc by lra. rewrite hh_0, !Rminus_0_r in E. rewrite E, Rabs_mult, (Rabs_pos_eq t) by lra. pose proof (hd_bound c ltac:(lra)) as B.
    replace (65 / W * t ^ 3) with (65 / W * t ^ 2 * t) by ring. apply Rmult_le_compat_r; [lra|]. eapply Rle_trans; [exact B|]. apply Rmult_le_compat_l; [apply Rdiv_le_0_compat; lra|]. apply pow_incr. lra.
Qed.
(** digamma(m) as approximated, m = n + 1 *)
Definition psia (m : R) : R := ln m - / m / 2 - Pf cs 2 (/ m) / W.
Definition gam : R := 57721566490153286 / 10 ^ 17.
Fixpoint H (n : nat) : R := match n with O => 0 | S m => H m + / INR (S m) end.
Lemma psia_step m : 1 <= m -> psia (m + 1) - psia m - / m = hh (/ m).
Proof.
  intros Hm. unfold psia, hh. assert (0 < / m) by (apply Rinv_0_lt_compat; lra). assert (E : / m / (1 + / m) = / (m + 1)) by (field; lra). rewrite E. assert (E2 : 1 + / m = (m + 1) / m) by (field; lra). rewrite E2, ln_div by lra. lra.
Qed.
Lemma base20 : Rabs (gam + psia 21 - H 20) <= 5 / 10 ^ 18.
Proof. unfold gam, psia, cs, W. cbn [Pf H]. cbn [INR]. interval with (i_prec 100). Qed.
(** H_n = gamma + psi(n+1) *)
Theorem harmonic_asymp n : (20 <= n)%nat -> Rabs (gam + psia (INR n + 1) - H n) <= 6 / 10 ^ 18 - / INR n / 10 ^ 18.
Proof.
  intros L. induction L as [|n L IH].
  - replace (INR 20) with 20 by (simpl; ring). replace (20 + 1) with 21 by ring. pose proof base20. lra.
  - assert (N : 20 <= INR n) by (replace 20 with (INR 20) by (simpl; ring); apply le_INR; lia). rewrite S_INR. cbn [H]. rewrite S_INR. set (x := INR n) in *. clearbody x.
    pose proof (psia_step (x + 1) ltac:(lra)) as S. assert (T : 0 < / (x + 1) <= / 20) by (split; [apply Rinv_0_lt_compat; lra|apply Rinv_le_contravar; lra]). pose proof (hh_bound (/ (x + 1)) ltac:(lra)) as B.
    replace (gam + psia (x + 1 + 1) - (H n + / (x + 1))) with ((gam + psia (x + 1) - H n) + hh (/ (x + 1))) by (rewrite <- S; ring). eapply Rle_trans; [apply Rabs_triang|].
    assert (D : 65 / W * (/ (x + 1)) ^ 3 <= (/ x - / (x + 1)) / 10 ^ 18).
    { replace (/ x - / (x + 1)) with (/ x * / (x + 1)) by (field; lra). assert (/ (x + 1) <= / x) by (apply Rinv_le_contravar; lra). set (a := / (x + 1)) in *. set (b := / x) in *. clearbody a b. unfold W. cbn [pow]. 
      assert (a * (a * 1) <= b * a) by nra. assert (0 <= a * (a * 1)) by nra. nra. }
    lra.
Qed.
