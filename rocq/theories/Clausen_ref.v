(** * Reference polynomials for the Clausen functions of order 2..6 on
      (0, 8/5) and (pi - 8/5, pi), to 1e-37.  Nothing here mentions the code. *)
From Coq Require Import Reals Lra Lia Psatz ZArith List Bool.
From Coquelicot Require Import Coquelicot.
From Interval Require Import Tactic.
From Verif Require Import Cheb Cheb_big Poly_check Fourier Polylog Chain Consts Clausen Clausen_vals Clausen_log.
Import ListNotations.
Local Open Scope R_scope.

(** a polynomial with rational head coefficients and an integer tail over a common denominator *)
Fixpoint plq (l : list (Z * Z)) (y : R) : R := match l with [] => 0 | (p, q) :: l' => IZR p / IZR q + y * plq l' y end.
Definition Wlist (pre : list (Z * Z)) (sg : Z) (tail : list Z) (MD : Z) : list Z :=
  map (fun pq => (fst pq * (MD / snd pq))%Z) pre ++ pscal sg tail.
Definition W_ok (pre : list (Z * Z)) (MD : Z) : bool := ((0 <? MD)%Z && forallb (fun pq => (0 <? snd pq) && (MD mod snd pq =? 0)) pre)%Z%bool.
Lemma Wlist_pz pre sg tail MD y : W_ok pre MD = true ->
  pz (Wlist pre sg tail MD) y / IZR MD = plq pre y + IZR sg * y ^ length pre * (pz tail y / IZR MD).
Proof.
  unfold W_ok, Wlist. rewrite andb_true_iff, Z.ltb_lt. intros [H0 H]. assert (M0 : 0 < IZR MD) by (apply (IZR_lt 0); exact H0).
  induction pre as [|[p q] pre IH]; cbn [map app plq length pow fst snd].
  - rewrite pz_scal. field. lra.
  - cbn [forallb fst snd] in H. rewrite !andb_true_iff, Z.ltb_lt, Z.eqb_eq in H. destruct H as [[H1 H2] H3]. cbn [pz].
    specialize (IH H3). assert (E : (MD = q * (MD / q))%Z) by (apply Z.div_exact; lia).
    assert (EQ : IZR (p * (MD / q)) = IZR MD * (IZR p / IZR q)).
    { rewrite E at 2. rewrite !mult_IZR. field. apply IZR_neq. lia. }
    rewrite EQ. set (u := pz _ y) in *. replace (u) with (IZR MD * (u / IZR MD)) by (field; lra). rewrite IH.
    assert (Q0 : IZR q <> 0) by (apply IZR_neq; lia). field. split; [lra|exact Q0].
Qed.
Definition lcm_poch (n len : nat) : Z := fold_left (fun a k => Z.lcm a (pochZ (2 * Z.of_nat k) n)) (seq 1 len) 1%Z.

Definition z3n : Z := 1202056903159594285399738161511449990764986.
Definition z5n : Z := 1036927755143369926331365486457034168057081.
Definition l2n : Z := 69314718055994530941723212145817656807550013436.
Definition d42 : Z := Eval vm_compute in (10 ^ 42)%Z.
Definition d47 : Z := Eval vm_compute in (10 ^ 47)%Z.

(** common denominators: lcm of the Pochhammer products, times 10^70; a factor 16 for the 15/16 of eta(5) *)
Definition MN (n : nat) : Z := (7200 * lcm_poch n 34)%Z.
Definition MF (n : nat) : Z := (7200 * lcm_poch n 68)%Z.
Definition MN2 := Eval vm_compute in MN 2. Definition MN3 := Eval vm_compute in MN 3. Definition MN4 := Eval vm_compute in MN 4.
Definition MN5 := Eval vm_compute in MN 5. Definition MN6 := Eval vm_compute in MN 6.
Definition MF2 := Eval vm_compute in MF 2. Definition MF3 := Eval vm_compute in MF 3. Definition MF4 := Eval vm_compute in MF 4.
Definition MF5 := Eval vm_compute in MF 5. Definition MF6 := Eval vm_compute in MF 6.

Definition preN2 : list (Z * Z) := [].
Definition preN3 : list (Z * Z) := [(-3, 4)]%Z.
Definition preN4 : list (Z * Z) := [(-11, 36)]%Z.
Definition preN5 : list (Z * Z) := [(z5n, d42); (- z3n, 2 * d42); (25, 288)]%Z.
Definition preN6 : list (Z * Z) := [(z5n, d42); (- z3n, 6 * d42); (137, 7200)]%Z.
Definition preF2 : list (Z * Z) := [(l2n, d47)].
Definition preF3 : list (Z * Z) := [(-3 * z3n, 4 * d42); (l2n, 2 * d47)]%Z.
Definition preF4 : list (Z * Z) := [(3 * z3n, 4 * d42); (- l2n, 6 * d47)]%Z.
Definition preF5 : list (Z * Z) := [(-15 * z5n, 16 * d42); (3 * z3n, 8 * d42); (- l2n, 24 * d47)]%Z.
Definition preF6 : list (Z * Z) := [(15 * z5n, 16 * d42); (- z3n, 8 * d42); (l2n, 120 * d47)]%Z.

Definition DN2 := (MN2 * sD)%Z. Definition DN3 := (MN3 * sD)%Z. Definition DN4 := (MN4 * sD)%Z. Definition DN5 := (MN5 * sD)%Z. Definition DN6 := (MN6 * sD)%Z.
Definition DF2 := (MF2 * sD)%Z. Definition DF3 := (MF3 * sD)%Z. Definition DF4 := (MF4 * sD)%Z. Definition DF5 := (MF5 * sD)%Z. Definition DF6 := (MF6 * sD)%Z.
Definition WN2 := Wlist preN2 1 (rpz sN 2 1 MN2) DN2.
Definition WN3 := Wlist preN3 (-1) (rpz sN 3 1 MN3) DN3.
Definition WN4 := Wlist preN4 (-1) (rpz sN 4 1 MN4) DN4.
Definition WN5 := Wlist preN5 1 (rpz sN 5 1 MN5) DN5.
Definition WN6 := Wlist preN6 1 (rpz sN 6 1 MN6) DN6.
Definition WF2 := Wlist preF2 (-1) (rpz sF 2 1 MF2) DF2.
Definition WF3 := Wlist preF3 (-1) (rpz sF 3 1 MF3) DF3.
Definition WF4 := Wlist preF4 1 (rpz sF 4 1 MF4) DF4.
Definition WF5 := Wlist preF5 1 (rpz sF 5 1 MF5) DF5.
Definition WF6 := Wlist preF6 (-1) (rpz sF 6 1 MF6) DF6.

Lemma rp_tail s n M x : rp_div s n 1 M = true -> (0 < M)%Z ->
  rp s n 1 x / IZR sD = x ^ S n * (pz (rpz s n 1 M) (x * x) / IZR (M * sD)).
Proof.
  intros H HM. pose proof (rpz_ok s n M 1 x ltac:(lia) H) as K. replace (2 * 1 + n - 1)%nat with (S n) in K by lia.
  pose proof sD_pos. assert (0 < IZR M) by (apply (IZR_lt 0); exact HM). rewrite mult_IZR.
  assert (E : rp s n 1 x = x ^ S n * pz (rpz s n 1 M) (x * x) / IZR M) by (rewrite <- K; field; lra). rewrite E. field. lra.
Qed.

Lemma d42_eq : IZR d42 = 10 ^ 42. Proof. rewrite pow_IZR. reflexivity. Qed.
Lemma d47_eq : IZR d47 = 10 ^ 47. Proof. rewrite pow_IZR. reflexivity. Qed.
Definition z3 : R := ReLi 3 1. Definition z5 : R := ReLi 5 1.
Lemma z3_err : Rabs (IZR z3n / IZR d42 - z3) <= 3 / 10 ^ 39. Proof. rewrite d42_eq. exact zeta3_dec. Qed.
Lemma z5_err : Rabs (IZR z5n / IZR d42 - z5) <= 3 / 10 ^ 39. Proof. rewrite d42_eq. exact zeta5_dec. Qed.
Lemma l2_err : Rabs (IZR l2n / IZR d47 - ln 2) <= / 10 ^ 46. Proof. rewrite d47_eq. pose proof ln2_dec as H. rewrite Rabs_minus_sym. exact H. Qed.
Lemma d42_pos : 0 < IZR d42. Proof. apply (IZR_lt 0). reflexivity. Qed.
Lemma d47_pos : 0 < IZR d47. Proof. apply (IZR_lt 0). reflexivity. Qed.
Ltac plq_simp := cbn [plq]; repeat rewrite ?mult_IZR, ?opp_IZR.

Lemma lp_pos m x : 0 < x -> lp m x = x ^ m / INR (fact m) * (ln x - Hm m).
Proof. intros H. unfold lp. rewrite Rabs_pos_eq by lra. reflexivity. Qed.

Definition e38 : R := / 10 ^ 38.
Lemma e38_pos : 0 < e38. Proof. apply Rinv_0_lt_compat, pow_lt. lra. Qed.
Lemma poch_ge1 m : 1 <= poch 2 m.
Proof. induction m as [|m IH]; cbn [poch]; [lra|]. assert (1 <= INR (2 + m)) by (rewrite plus_INR; change (INR 2) with 2; pose proof (pos_INR m); lra). nra. Qed.
Lemma near_gen m x : 0 < x < 8 / 5 -> Rabs (Acl m x - nearR sN (IZR sD) m x) <= e38 * x ^ (2 + m).
Proof.
  intros Hx. eapply Rle_trans; [apply Acl_near; exact Hx|]. apply Rmult_le_compat_r; [apply pow_le; lra|]. fold e38. pose proof (poch_ge1 (S m)). pose proof e38_pos.
  unfold Rdiv. rewrite <- (Rmult_1_r e38) at 2. apply Rmult_le_compat_l; [lra|]. rewrite <- Rinv_1. apply Rinv_le_contravar; lra.
Qed.
Lemma far_gen m x : 0 < x < 8 / 5 -> Rabs (Bcl m x - farR sF (IZR sD) m x) <= e38 * x ^ (2 + m).
Proof.
  intros Hx. eapply Rle_trans; [apply Bcl_far; exact Hx|]. apply Rmult_le_compat_r; [apply pow_le; lra|]. fold e38. pose proof (poch_ge1 (S m)). pose proof e38_pos.
  unfold Rdiv. rewrite <- (Rmult_1_r e38) at 2. apply Rmult_le_compat_l; [lra|]. rewrite <- Rinv_1. apply Rinv_le_contravar; lra.
Qed.
Definition TN (n : nat) (M : Z) (x : R) : R := pz (rpz sN n 1 M) (x * x) / IZR (M * sD).
Definition TF (n : nat) (M : Z) (x : R) : R := pz (rpz sF n 1 M) (x * x) / IZR (M * sD).

Lemma tail_N n M x : rp_div sN n 1 M = true -> (0 < M)%Z -> rp sN n 1 x / IZR sD = x ^ S n * TN n M x.
Proof. apply rp_tail. Qed.
Lemma tail_F n M x : rp_div sF n 1 M = true -> (0 < M)%Z -> rp sF n 1 x / IZR sD = x ^ S n * TF n M x.
Proof. apply rp_tail. Qed.
Ltac fact_num_in B := revert B; change (fact 1) with 1%nat; change (INR 1) with 1; change (fact 0) with 1%nat; fact_num; intros B.
Ltac near_start m M x Hx B := 
  pose proof (near_gen m x Hx) as B; unfold nearR in B; rewrite (tail_N (S m) M) in B by (vm_compute; reflexivity); rewrite lp_pos in B by lra;
  destruct Acl_at0 as (A0 & A1 & A2 & A3 & A4 & A5); cbn [tp Hm] in B; rewrite ?A0, ?A1, ?A2, ?A3, ?A4, ?A5 in B; clear A0 A1 A2 A3 A4 A5; fold z3 z5 in B;
  fact_num_in B; rewrite ?S_INR in B; change (INR 0) with 0 in B; change (2 + m)%nat with (S (S m)) in B.
Ltac near_end B e := match type of B with Rabs ?a <= ?b => first [ replace e with a by (cbn [pow Nat.div2 Acl]; field) | replace e with (- a) by (cbn [pow Nat.div2 Acl]; field); rewrite Rabs_Ropp ]; eapply Rle_trans; [exact B|] end.

Lemma nB2 x : 0 < x < 8 / 5 -> Rabs (Clspec 2 x - (x * (1 - ln x) + x ^ 3 * TN 2 MN2 x)) <= e38 * x ^ 3.
Proof.
  intros Hx. near_start 1%nat MN2 x Hx B. change (Acl 1 x) with (1 * Clspec 2 x) in B.
  match goal with |- Rabs ?e <= _ => near_end B e end. lra.
Qed.
Lemma nB3 x : 0 < x < 8 / 5 -> Rabs (Clspec 3 x - (z3 + x ^ 2 / 2 * (ln x - 3 / 2) - x ^ 4 * TN 3 MN3 x)) <= e38 * x ^ 4.
Proof.
  intros Hx. near_start 2%nat MN3 x Hx B. change (Acl 2 x) with (-1 * 1 * Clspec 3 x) in B.
  match goal with |- Rabs ?e <= _ => near_end B e end. lra.
Qed.
Lemma nB4 x : 0 < x < 8 / 5 -> Rabs (Clspec 4 x - (z3 * x + x ^ 3 / 6 * (ln x - 11 / 6) - x ^ 5 * TN 4 MN4 x)) <= e38 * x ^ 5.
Proof.
  intros Hx. near_start 3%nat MN4 x Hx B. change (Acl 3 x) with (-1 * 1 * Clspec 4 x) in B.
  match goal with |- Rabs ?e <= _ => near_end B e end. lra.
Qed.
Lemma nB5 x : 0 < x < 8 / 5 -> Rabs (Clspec 5 x - (z5 - z3 * x ^ 2 / 2 - x ^ 4 / 24 * (ln x - 25 / 12) + x ^ 6 * TN 5 MN5 x)) <= e38 * x ^ 6.
Proof.
  intros Hx. near_start 4%nat MN5 x Hx B. change (Acl 4 x) with (-1 * (-1 * 1) * Clspec 5 x) in B.
  match goal with |- Rabs ?e <= _ => near_end B e end. lra.
Qed.
Lemma nB6 x : 0 < x < 8 / 5 -> Rabs (Clspec 6 x - (z5 * x - z3 * x ^ 3 / 6 - x ^ 5 / 120 * (ln x - 137 / 60) + x ^ 7 * TN 6 MN6 x)) <= e38 * x ^ 7.
Proof.
  intros Hx. near_start 5%nat MN6 x Hx B. change (Acl 5 x) with (-1 * (-1 * 1) * Clspec 6 x) in B.
  match goal with |- Rabs ?e <= _ => near_end B e end. lra.
Qed.
Ltac far_start m M x Hx B := 
  pose proof (far_gen m x Hx) as B; unfold farR in B; rewrite (tail_F (S m) M) in B by (vm_compute; reflexivity); 
  destruct Bcl_at0 as (A0 & A1 & A2 & A3 & A4 & A5); cbn [tp] in B; rewrite ?A0, ?A1, ?A2, ?A3, ?A4, ?A5 in B; clear A0 A1 A2 A3 A4 A5; fold z3 z5 in B;
  fact_num_in B; change (2 + m)%nat with (S (S m)) in B.
Lemma fB2 w : 0 < w < 8 / 5 -> Rabs (Clspec 2 (PI - w) - (ln 2 * w - w ^ 3 * TF 2 MF2 w)) <= e38 * w ^ 3.
Proof.
  intros Hx. far_start 1%nat MF2 w Hx B. change (Bcl 1 w) with (-1 * 1 * (1 * Clspec 2 (PI - w))) in B.
  match goal with |- Rabs ?e <= _ => near_end B e end. lra.
Qed.
Lemma fB3 w : 0 < w < 8 / 5 -> Rabs (Clspec 3 (PI - w) - (- (3 / 4) * z3 + ln 2 * w ^ 2 / 2 - w ^ 4 * TF 3 MF3 w)) <= e38 * w ^ 4.
Proof.
  intros Hx. far_start 2%nat MF3 w Hx B. change (Bcl 2 w) with (-1 * (-1 * 1) * (-1 * 1 * Clspec 3 (PI - w))) in B.
  match goal with |- Rabs ?e <= _ => near_end B e end. lra.
Qed.
Lemma fB4 w : 0 < w < 8 / 5 -> Rabs (Clspec 4 (PI - w) - (3 / 4 * z3 * w - ln 2 * w ^ 3 / 6 + w ^ 5 * TF 4 MF4 w)) <= e38 * w ^ 5.
Proof.
  intros Hx. far_start 3%nat MF4 w Hx B. change (Bcl 3 w) with (-1 * (-1 * (-1 * 1)) * (-1 * 1 * Clspec 4 (PI - w))) in B.
  match goal with |- Rabs ?e <= _ => near_end B e end. lra.
Qed.
Lemma fB5 w : 0 < w < 8 / 5 -> Rabs (Clspec 5 (PI - w) - (- (15 / 16) * z5 + 3 / 8 * z3 * w ^ 2 - ln 2 * w ^ 4 / 24 + w ^ 6 * TF 5 MF5 w)) <= e38 * w ^ 6.
Proof.
  intros Hx. far_start 4%nat MF5 w Hx B. change (Bcl 4 w) with (-1 * (-1 * (-1 * (-1 * 1))) * (-1 * (-1 * 1) * Clspec 5 (PI - w))) in B.
  match goal with |- Rabs ?e <= _ => near_end B e end. lra.
Qed.
Lemma fB6 w : 0 < w < 8 / 5 -> Rabs (Clspec 6 (PI - w) - (15 / 16 * z5 * w - 3 / 8 * z3 * w ^ 3 / 3 + ln 2 * w ^ 5 / 120 - w ^ 7 * TF 6 MF6 w)) <= e38 * w ^ 7.
Proof.
  intros Hx. far_start 5%nat MF6 w Hx B. change (Bcl 5 w) with (-1 * (-1 * (-1 * (-1 * (-1 * 1)))) * (-1 * (-1 * 1) * Clspec 6 (PI - w))) in B.
  match goal with |- Rabs ?e <= _ => near_end B e end. lra.
Qed.

(** ** the reference polynomials *)
Ltac W_simp := rewrite Wlist_pz by (vm_compute; reflexivity);
  match goal with |- context [plq ?p ?y] => unfold p end; cbn [plq length pow]; repeat rewrite ?mult_IZR, ?opp_IZR.
Lemma err_scale c a e E P : Rabs e <= E -> 0 <= a <= P -> 0 <= c -> Rabs (c * a * e) <= c * P * E.
Proof. intros He Ha Hc. rewrite Rabs_mult, (Rabs_pos_eq (c * a)) by (apply Rmult_le_pos; lra). pose proof (Rabs_pos e). apply Rmult_le_compat; [nra|lra|nra|exact He]. Qed.
Definition dz3 : R := IZR z3n / IZR d42 - z3. Definition dz5 : R := IZR z5n / IZR d42 - z5. Definition dl2 : R := IZR l2n / IZR d47 - ln 2.
Lemma dz3_ok : Rabs dz3 <= 3 / 10 * e38. Proof. unfold e38. eapply Rle_trans; [exact z3_err|]. right. field. Qed.
Lemma dz5_ok : Rabs dz5 <= 3 / 10 * e38. Proof. unfold e38. eapply Rle_trans; [exact z5_err|]. right. field. Qed.
Lemma dl2_ok : Rabs dl2 <= / 1000 * e38. Proof. unfold e38. eapply Rle_trans; [exact l2_err|]. lra. Qed.
Lemma z3n_eq : IZR z3n / IZR d42 = z3 + dz3. Proof. unfold dz3. ring. Qed.
Lemma z5n_eq : IZR z5n / IZR d42 = z5 + dz5. Proof. unfold dz5. ring. Qed.
Lemma l2n_eq : IZR l2n / IZR d47 = ln 2 + dl2. Proof. unfold dl2. ring. Qed.
Lemma z3n_eq' : IZR z3n = (z3 + dz3) * IZR d42. Proof. unfold dz3. field. pose proof d42_pos. lra. Qed.
Lemma z5n_eq' : IZR z5n = (z5 + dz5) * IZR d42. Proof. unfold dz5. field. pose proof d42_pos. lra. Qed.
Lemma l2n_eq' : IZR l2n = (ln 2 + dl2) * IZR d47. Proof. unfold dl2. field. pose proof d47_pos. lra. Qed.
Lemma pow_Sb k x : 0 < x < 8 / 5 -> 0 <= x ^ k <= (8 / 5) ^ k.
Proof. intros H. split; [apply pow_le; lra|apply pow_incr; lra]. Qed.

(** B : |b| <= bound, and the goal's argument is [-b + r] (or [b + r]) with |r| <= R *)
Lemma err_add a b r B R C : Rabs b <= B -> Rabs r <= R -> a = - b + r -> B + R <= C -> Rabs a <= C.
Proof. intros Hb Hr -> H. eapply Rle_trans; [apply Rabs_triang|]. rewrite Rabs_Ropp. lra. Qed.
Lemma err_addp a b r B R C : Rabs b <= B -> Rabs r <= R -> a = b + r -> B + R <= C -> Rabs a <= C.
Proof. intros Hb Hr -> H. eapply Rle_trans; [apply Rabs_triang|]. lra. Qed.
Lemma e37 : / 10 ^ 37 = 10 * e38. Proof. unfold e38. field. Qed.

Definition eN (n : nat) (y : R) : R :=
  match n with 2%nat => pz WN2 y / IZR DN2 | 3%nat => pz WN3 y / IZR DN3 | 4%nat => pz WN4 y / IZR DN4 | 5%nat => pz WN5 y / IZR DN5 | _ => pz WN6 y / IZR DN6 end.
Definition eF (n : nat) (y : R) : R :=
  match n with 2%nat => pz WF2 y / IZR DF2 | 3%nat => pz WF3 y / IZR DF3 | 4%nat => pz WF4 y / IZR DF4 | 5%nat => pz WF5 y / IZR DF5 | _ => pz WF6 y / IZR DF6 end.

Theorem Cl2_near x : 0 < x < 8 / 5 -> Rabs (x * (1 - ln x + x * x * eN 2 (x * x)) - Clspec 2 x) <= / 10 ^ 37 * x.
Proof.
  intros Hx. rewrite e37. pose proof (nB2 x Hx) as B. cbn [eN]. unfold WN2. W_simp. fold (TN 2 MN2 x). unfold DN2. fold (TN 2 MN2 x).
  eapply (err_add _ _ 0); [exact B|rewrite Rabs_R0; apply Rle_refl|cbn [pow]; ring|].
  pose proof e38_pos. pose proof (pow_Sb 2 x Hx). replace (e38 * x ^ 3) with (e38 * x ^ 2 * x) by ring.
  assert (e38 * x ^ 2 <= e38 * (8 / 5) ^ 2) by (apply Rmult_le_compat_l; lra). nra.
Qed.
Theorem Cl3_near x : 0 < x < 8 / 5 -> Rabs (z3 + x * x * (eN 3 (x * x) + / 2 * ln x) - Clspec 3 x) <= / 10 ^ 37 * (x * x).
Proof.
  intros Hx. rewrite e37. pose proof (nB3 x Hx) as B. cbn [eN]. unfold WN3. W_simp. unfold DN3. fold (TN 3 MN3 x).
  eapply (err_add _ _ 0); [exact B|rewrite Rabs_R0; apply Rle_refl|cbn [pow]; field|].
  pose proof e38_pos. pose proof (pow_Sb 2 x Hx). assert (0 < x * x) by nra. replace (e38 * x ^ 4) with (e38 * x ^ 2 * (x * x)) by ring.
  assert (e38 * x ^ 2 <= e38 * (8 / 5) ^ 2) by (apply Rmult_le_compat_l; lra). nra.
Qed.
Theorem Cl4_near x : 0 < x < 8 / 5 -> Rabs (x * (z3 + x * x * (eN 4 (x * x) + / 6 * ln x)) - Clspec 4 x) <= / 10 ^ 37 * x.
Proof.
  intros Hx. rewrite e37. pose proof (nB4 x Hx) as B. cbn [eN]. unfold WN4. W_simp. unfold DN4. fold (TN 4 MN4 x).
  eapply (err_add _ _ 0); [exact B|rewrite Rabs_R0; apply Rle_refl|cbn [pow]; field|].
  pose proof e38_pos. pose proof (pow_Sb 4 x Hx). replace (e38 * x ^ 5) with (e38 * x ^ 4 * x) by ring.
  assert (e38 * x ^ 4 <= e38 * (8 / 5) ^ 4) by (apply Rmult_le_compat_l; lra). nra.
Qed.
Theorem Cl5_near x : 0 < x < 8 / 5 -> Rabs (eN 5 (x * x) - / 24 * ((x * x) * (x * x)) * ln x - Clspec 5 x) <= 2 * / 10 ^ 37.
Proof.
  intros Hx. rewrite e37. pose proof (nB5 x Hx) as B. cbn [eN]. unfold WN5. W_simp. unfold DN5. fold (TN 5 MN5 x). rewrite z3n_eq', z5n_eq'.
  pose proof dz3_ok as E3. pose proof dz5_ok as E5. pose proof d42_pos. pose proof e38_pos. pose proof (pow_Sb 2 x Hx). pose proof (pow_Sb 6 x Hx).
  eapply (err_add _ _ (1 * 1 * dz5 + - (/ 2 * x ^ 2 * dz3))); [exact B| |cbn [pow]; field; lra|].
  - eapply Rle_trans; [apply Rabs_triang|]. rewrite Rabs_Ropp.
    apply Rplus_le_compat; [apply (err_scale _ _ _ _ 1 E5); lra|apply (err_scale _ _ _ _ _ E3 H1); lra].
  - assert (e38 * x ^ 6 <= e38 * (8 / 5) ^ 6) by (apply Rmult_le_compat_l; lra). lra.
Qed.
Theorem Cl6_near x : 0 < x < 8 / 5 -> Rabs (x * (eN 6 (x * x) - / 120 * ((x * x) * (x * x)) * ln x) - Clspec 6 x) <= 2 * / 10 ^ 37 * x.
Proof.
  intros Hx. rewrite e37. pose proof (nB6 x Hx) as B. cbn [eN]. unfold WN6. W_simp. unfold DN6. fold (TN 6 MN6 x). rewrite z3n_eq', z5n_eq'.
  pose proof dz3_ok as E3. pose proof dz5_ok as E5. pose proof d42_pos. pose proof e38_pos. pose proof (pow_Sb 2 x Hx). pose proof (pow_Sb 6 x Hx).
  eapply (err_add _ _ (1 * x * dz5 + - (/ 6 * x ^ 3 * dz3))); [exact B| |cbn [pow]; field; lra|].
  - eapply Rle_trans; [apply Rabs_triang|]. rewrite Rabs_Ropp.
    apply Rplus_le_compat; [apply (err_scale _ _ _ _ x E5); lra|apply (err_scale _ _ _ _ (x ^ 3) E3); [split; [apply pow_le; lra|lra]|lra]].
  - replace (e38 * x ^ 7) with (e38 * x ^ 6 * x) by ring. replace (x ^ 3) with (x ^ 2 * x) by ring.
    assert (e38 * x ^ 6 <= e38 * (8 / 5) ^ 6) by (apply Rmult_le_compat_l; lra).
    assert (e38 * x ^ 2 <= e38 * (8 / 5) ^ 2) by (apply Rmult_le_compat_l; lra). nra.
Qed.

Theorem Cl2_far w : 0 < w < 8 / 5 -> Rabs (w * eF 2 (w * w) - Clspec 2 (PI - w)) <= / 10 ^ 37 * w.
Proof.
  intros Hx. rewrite e37. pose proof (fB2 w Hx) as B. cbn [eF]. unfold WF2. W_simp. unfold DF2. fold (TF 2 MF2 w). rewrite l2n_eq'.
  pose proof dl2_ok as E2. pose proof d47_pos. pose proof e38_pos. pose proof (pow_Sb 2 w Hx).
  eapply (err_add _ _ (1 * w * dl2)); [exact B|apply (err_scale _ _ _ _ w E2); lra|cbn [pow]; field; lra|].
  replace (e38 * w ^ 3) with (e38 * w ^ 2 * w) by ring.
  assert (e38 * w ^ 2 <= e38 * (8 / 5) ^ 2) by (apply Rmult_le_compat_l; lra). nra.
Qed.
Theorem Cl3_far w : 0 < w < 8 / 5 -> Rabs (eF 3 (w * w) - Clspec 3 (PI - w)) <= / 10 ^ 37.
Proof.
  intros Hx. rewrite e37. pose proof (fB3 w Hx) as B. cbn [eF]. unfold WF3. W_simp. unfold DF3. fold (TF 3 MF3 w). rewrite l2n_eq', z3n_eq'.
  pose proof dl2_ok as E2. pose proof dz3_ok as E3. pose proof d47_pos. pose proof d42_pos. pose proof e38_pos. pose proof (pow_Sb 2 w Hx). pose proof (pow_Sb 4 w Hx).
  eapply (err_add _ _ (- (3 / 4 * 1 * dz3) + / 2 * w ^ 2 * dl2)); [exact B| |cbn [pow]; field; lra|].
  - eapply Rle_trans; [apply Rabs_triang|]. rewrite Rabs_Ropp.
    apply Rplus_le_compat; [apply (err_scale _ _ _ _ 1 E3); lra|apply (err_scale _ _ _ _ _ E2 H2); lra].
  - assert (e38 * w ^ 4 <= e38 * (8 / 5) ^ 4) by (apply Rmult_le_compat_l; lra). lra.
Qed.
Theorem Cl4_far w : 0 < w < 8 / 5 -> Rabs (w * eF 4 (w * w) - Clspec 4 (PI - w)) <= / 10 ^ 37 * w.
Proof.
  intros Hx. rewrite e37. pose proof (fB4 w Hx) as B. cbn [eF]. unfold WF4. W_simp. unfold DF4. fold (TF 4 MF4 w). rewrite l2n_eq', z3n_eq'.
  pose proof dl2_ok as E2. pose proof dz3_ok as E3. pose proof d47_pos. pose proof d42_pos. pose proof e38_pos. pose proof (pow_Sb 2 w Hx). pose proof (pow_Sb 4 w Hx).
  eapply (err_add _ _ ((3 / 4 * w * dz3) + - (/ 6 * w ^ 3 * dl2))); [exact B| |cbn [pow]; field; lra|].
  - eapply Rle_trans; [apply Rabs_triang|]. rewrite Rabs_Ropp.
    apply Rplus_le_compat; [apply (err_scale _ _ _ _ w E3); lra|apply (err_scale _ _ _ _ (w ^ 3) E2); [split; [apply pow_le; lra|lra]|lra]].
  - replace (e38 * w ^ 5) with (e38 * w ^ 4 * w) by ring. replace (w ^ 3) with (w ^ 2 * w) by ring.
    assert (e38 * w ^ 4 <= e38 * (8 / 5) ^ 4) by (apply Rmult_le_compat_l; lra). 
    assert (e38 * w ^ 2 <= e38 * (8 / 5) ^ 2) by (apply Rmult_le_compat_l; lra). nra.
Qed.
Theorem Cl5_far w : 0 < w < 8 / 5 -> Rabs (eF 5 (w * w) - Clspec 5 (PI - w)) <= 2 * / 10 ^ 37.
Proof.
  intros Hx. rewrite e37. pose proof (fB5 w Hx) as B. cbn [eF]. unfold WF5. W_simp. unfold DF5. fold (TF 5 MF5 w). rewrite l2n_eq', z3n_eq', z5n_eq'.
  pose proof dl2_ok as E2. pose proof dz3_ok as E3. pose proof dz5_ok as E5. pose proof d47_pos. pose proof d42_pos. pose proof e38_pos. pose proof (pow_Sb 2 w Hx). pose proof (pow_Sb 4 w Hx). pose proof (pow_Sb 6 w Hx).
  eapply (err_add _ _ (- (15 / 16 * 1 * dz5) + 3 / 8 * w ^ 2 * dz3 + - (/ 24 * w ^ 4 * dl2))); [exact B| |cbn [pow]; field; lra|].
  - eapply Rle_trans; [apply Rabs_triang|]. apply Rplus_le_compat; [eapply Rle_trans; [apply Rabs_triang|]; apply Rplus_le_compat|].
    + rewrite Rabs_Ropp. apply (err_scale _ _ _ _ 1 E5); lra.
    + apply (err_scale _ _ _ _ _ E3 H2); lra.
    + rewrite Rabs_Ropp. apply (err_scale _ _ _ _ _ E2 H3); lra.
  - assert (e38 * w ^ 6 <= e38 * (8 / 5) ^ 6) by (apply Rmult_le_compat_l; lra). lra.
Qed.
Theorem Cl6_far w : 0 < w < 8 / 5 -> Rabs (w * eF 6 (w * w) - Clspec 6 (PI - w)) <= 2 * / 10 ^ 37 * w.
Proof.
  intros Hx. rewrite e37. pose proof (fB6 w Hx) as B. cbn [eF]. unfold WF6. W_simp. unfold DF6. fold (TF 6 MF6 w). rewrite l2n_eq', z3n_eq', z5n_eq'.
  pose proof dl2_ok as E2. pose proof dz3_ok as E3. pose proof dz5_ok as E5. pose proof d47_pos. pose proof d42_pos. pose proof e38_pos. pose proof (pow_Sb 2 w Hx). pose proof (pow_Sb 4 w Hx). pose proof (pow_Sb 6 w Hx).
  eapply (err_add _ _ (15 / 16 * w * dz5 + - (/ 8 * w ^ 3 * dz3) + / 120 * w ^ 5 * dl2)); [exact B| |cbn [pow]; field; lra|].
  - eapply Rle_trans; [apply Rabs_triang|]. apply Rplus_le_compat; [eapply Rle_trans; [apply Rabs_triang|]; apply Rplus_le_compat|].
    + apply (err_scale _ _ _ _ w E5); lra.
    + rewrite Rabs_Ropp. apply (err_scale _ _ _ _ (w ^ 3) E3); [split; [apply pow_le; lra|lra]|lra].
    + apply (err_scale _ _ _ _ (w ^ 5) E2); [split; [apply pow_le; lra|lra]|lra].
  - replace (e38 * w ^ 7) with (e38 * w ^ 6 * w) by ring. replace (w ^ 3) with (w ^ 2 * w) by ring. replace (w ^ 5) with (w ^ 4 * w) by ring.
    assert (e38 * w ^ 6 <= e38 * (8 / 5) ^ 6) by (apply Rmult_le_compat_l; lra). 
    assert (e38 * w ^ 4 <= e38 * (8 / 5) ^ 4) by (apply Rmult_le_compat_l; lra). 
    assert (e38 * w ^ 2 <= e38 * (8 / 5) ^ 2) by (apply Rmult_le_compat_l; lra). nra.
Qed.
