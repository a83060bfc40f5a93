(** * C25 (conjugation symmetry), C26 (the real axis) *)
From Coq Require Import ZArith Reals List Bool Lra Lia Psatz.
From Coquelicot Require Import Coquelicot.
From Flocq Require Import Core.Raux.
From Interval Require Import Tactic.
From Verif Require Import Num NumR NumB Outcome Spec Eval_R Consts Model_LiR Model_LiC Model_Li Cplx Conj Conj_Li Polylog Proof_Li2 Proof_Li3 Proof_Li4.
From Flocq Require Import IEEE754.BinarySingleNaN.
Import ListNotations.
Local Open Scope R_scope.

(** ** C25.  [Cconj (x,y) = (x,-y)]; a call that yields poison in a component yields poison in the same component *)
Definition mirror (v : option R * option R) : option R * option R := (fst v, match snd v with Some y => Some (- y) | None => None end).
Definition mirror_out (o : out (option R * option R)) : out (option R * option R) :=
  match o with Val v => Val (mirror v) | Ub => Ub | NoFuel => NoFuel end.
Lemma nr_ofC e (z : C) : snd z <> 0 -> nonreal e (ofC e z).
Proof. intros H E. injection E. exact H. Qed.
Theorem C25_Li e d fuel n (z : C) : snd z <> 0 ->
  Li (NumR e) d fuel n (ofC e (Cconj z)) = mirror_out (Li (NumR e) d fuel n (ofC e z)).
Proof. intros H. exact (Li_cj e n d fuel (ofC e z) (nr_ofC e z H)). Qed.
(** in particular for a value *)
Theorem C25_Li_value e d fuel n (z w : C) : snd z <> 0 ->
  Li (NumR e) d fuel n (ofC e z) = Val (ofC e w) -> Li (NumR e) d fuel n (ofC e (Cconj z)) = Val (ofC e (Cconj w)).
Proof. intros H E. rewrite C25_Li by exact H. rewrite E. reflexivity. Qed.
Theorem C25_Li2 e (z : C) : snd z <> 0 ->
  cLi2_f (NumR e) (ofC e (Cconj z)) = mirror (cLi2_f (NumR e) (ofC e z)) /\
  cLi2_d (NumR e) (ofC e (Cconj z)) = mirror (cLi2_d (NumR e) (ofC e z)) /\
  cLi2_l (NumR e) (ofC e (Cconj z)) = mirror (cLi2_l (NumR e) (ofC e z)) /\
  cLi2_q (NumR e) (ofC e (Cconj z)) = mirror (cLi2_q (NumR e) (ofC e z)).
Proof. intros H. exact (conj2 e (ofC e z) (nr_ofC e z H)). Qed.
Theorem C25_Li3 e (z : C) : snd z <> 0 ->
  cLi3_d (NumR e) (ofC e (Cconj z)) = mirror (cLi3_d (NumR e) (ofC e z)) /\
  cLi3_l (NumR e) (ofC e (Cconj z)) = mirror (cLi3_l (NumR e) (ofC e z)) /\
  cLi3_q (NumR e) (ofC e (Cconj z)) = mirror (cLi3_q (NumR e) (ofC e z)).
Proof. intros H. pose proof (nr_ofC e z H) as K. exact (conj (conj3_d e _ K) (conj (conj3_l e _ K) (conj3_q e _ K))). Qed.
Theorem C25_Li4 e (z : C) : snd z <> 0 ->
  cLi4_d (NumR e) (ofC e (Cconj z)) = mirror (cLi4_d (NumR e) (ofC e z)) /\
  cLi4_l (NumR e) (ofC e (Cconj z)) = mirror (cLi4_l (NumR e) (ofC e z)) /\
  cLi4_q (NumR e) (ofC e (Cconj z)) = mirror (cLi4_q (NumR e) (ofC e z)).
Proof. intros H. pose proof (nr_ofC e z H) as K. exact (conj (conj4_d e _ K) (conj (conj4_l e _ K) (conj4_q e _ K))). Qed.
Theorem C25_Li5 e (z : C) : snd z <> 0 ->
  cLi5_d (NumR e) (ofC e (Cconj z)) = mirror (cLi5_d (NumR e) (ofC e z)) /\
  cLi5_l (NumR e) (ofC e (Cconj z)) = mirror (cLi5_l (NumR e) (ofC e z)) /\
  cLi5_q (NumR e) (ofC e (Cconj z)) = mirror (cLi5_q (NumR e) (ofC e z)).
Proof. intros H. pose proof (nr_ofC e z H) as K. exact (conj (conj5_d e _ K) (conj (conj5_l e _ K) (conj5_q e _ K))). Qed.
Theorem C25_Li6 e (z : C) : snd z <> 0 ->
  cLi6_d (NumR e) (ofC e (Cconj z)) = mirror (cLi6_d (NumR e) (ofC e z)) /\
  cLi6_l (NumR e) (ofC e (Cconj z)) = mirror (cLi6_l (NumR e) (ofC e z)) /\
  cLi6_q (NumR e) (ofC e (Cconj z)) = mirror (cLi6_q (NumR e) (ofC e z)).
Proof. intros H. pose proof (nr_ofC e z H) as K. exact (conj (conj6_d e _ K) (conj (conj6_l e _ K) (conj6_q e _ K))). Qed.

(** ** C26, IEEE arithmetic: the real part is bit for bit the real function's value, the imaginary
    part is the argument's own signed zero up to 1 and -pi log^(n-1)(x)/(n-1)!, as computed, beyond
    (a NaN real part takes the second branch) *)
Section Ieee.
Variables (prec emax : Z) (Hp : FLX.Prec_gt_0 prec) (He : Prec_lt_emax prec emax) (L : libm prec emax).
Notation N := (NumB prec emax Hp He L).
Notation F m k := (blit prec emax Hp He m k).
Notation "a * b" := (Bmult mode_NE a b).
Notation "a / b" := (Bdiv mode_NE a b).
Lemma b0eq s : eqb N (B754_zero s : N) (lit N 0 0) = true.
Proof. cbn [eqb lit NumB]. change (F 0 0) with (B754_zero false : binary_float prec emax). destruct s; reflexivity. Qed.
Theorem C26_ieee_below_1 (x : binary_float prec emax) s : Bleb x (F 1 0) = true ->
  let z := (x, B754_zero s) : cpx N in
  cLi2_f N z = (Li2_f N x, B754_zero s) /\ cLi2_d N z = (Li2_d N x, B754_zero s) /\ cLi2_l N z = (Li2_l N x, B754_zero s) /\
  cLi2_q N z = (Li2_q N x, B754_zero s) /\ cLi3_d N z = (Li3_d N x, B754_zero s) /\ cLi4_d N z = (Li4_d N x, B754_zero s).
Proof.
  intros H z. unfold cLi2_f, cLi2_d, cLi2_l, cLi2_q, cLi3_d, cLi4_d. subst z. cbv zeta. cbn [fst snd]. rewrite b0eq.
  change (leb N x (lit N 1 0)) with (Bleb x (F 1 0)). rewrite H. repeat apply conj; reflexivity.
Qed.
Theorem C26_ieee_above_1 (x : binary_float prec emax) s : Bleb x (F 1 0) = false ->
  let z := (x, B754_zero s) : cpx N in let l := m_log _ _ L x in
  cLi2_f N z = (Li2_f N x, Bopp (F 314159265 (-8)) * l) /\
  cLi2_d N z = (Li2_d N x, Bopp (F 31415926535897932 (-16)) * l) /\
  cLi2_l N z = (Li2_l N x, Bopp (F 314159265358979323846264338327950288 (-35)) * l) /\
  cLi2_q N z = (Li2_q N x, Bopp (F 314159265358979323846264338327950288 (-35)) * l) /\
  cLi3_d N z = (Li3_d N x, F (-5) (-1) * F 31415926535897932 (-16) * l * l) /\
  cLi4_d N z = (Li4_d N x, F (-1) 0 / F 6 0 * F 31415926535897932 (-16) * l * l * l).
Proof.
  intros H z. unfold cLi2_f, cLi2_d, cLi2_l, cLi2_q, cLi3_d, cLi4_d. subst z. cbv zeta. cbn [fst snd]. rewrite b0eq.
  change (leb N x (lit N 1 0)) with (Bleb x (F 1 0)). rewrite H. repeat apply conj; reflexivity.
Qed.
End Ieee.

(** exact arithmetic: the values.  On the real axis z = x the functions return Re Li_n(x) and
    -pi ln(x)^(n-1)/(n-1)! for x > 1 (the limit from below the cut), 0 for x <= 1. *)
Definition ImLi (n : nat) (x : R) : R := if Rle_dec x 1 then 0 else - (PI * ln x ^ (n - 1) / INR (fact (n - 1))).
Ltac axis := unfold cLi2_f, cLi2_d, cLi2_l, cLi2_q, cLi3_d, cLi4_d; cbv zeta; unfold ofC; cbn [fst snd]; rewrite ?lit_int; cbn [eqb leb ocmp NumR];
  rewrite Reqb_true by reflexivity.
Lemma axis_case (x : R) : (Rleb x 1 = true /\ x <= 1) \/ (Rleb x 1 = false /\ 1 < x).
Proof. unfold Rleb. destruct (Rle_dec x 1); [left|right]; split; auto; lra. Qed.
(** a constant p close to pi gives the imaginary part with the same relative accuracy *)
Lemma im_err (p d q x : R) n : 1 < x -> Rabs (PI - p) <= d -> d <= 3 * q ->
  Rabs (- (p * ln x ^ (n - 1) / INR (fact (n - 1))) - - (PI * ln x ^ (n - 1) / INR (fact (n - 1)))) <= q * Rabs (- (PI * ln x ^ (n - 1) / INR (fact (n - 1)))).
Proof.
  intros B P D. rewrite Rabs_Ropp. unfold Rdiv. rewrite !Rmult_assoc. set (t := ln x ^ (n - 1) * / INR (fact (n - 1))).
  replace (- (p * t) - - (PI * t)) with ((PI - p) * t) by ring. rewrite !Rabs_mult. rewrite (Rabs_pos_eq PI) by (pose proof PI_RGT_0; lra).
  pose proof PI_dec20. pose proof (Rabs_pos t). pose proof (Rabs_pos (PI - p)).
  apply Rle_trans with (d * Rabs t); [apply Rmult_le_compat_r; assumption|]. rewrite <- Rmult_assoc. apply Rmult_le_compat_r; [assumption|]. nra.
Qed.
Lemma pi_f_err : Rabs (PI - litR 314159265 (-8)) <= 3.6e-9.
Proof. rewrite litR_dec. pose proof PI_dec20. change (IZR (10 ^ Z.pos 8)) with 100000000. apply Rabs_le. lra. Qed.
Lemma pi_d_err : Rabs (PI - litR 31415926535897932 (-16)) <= 5e-17.
Proof. rewrite litR_dec. pose proof PI_dec20. change (IZR (10 ^ Z.pos 16)) with 10000000000000000. apply Rabs_le. lra. Qed.
Lemma pi_l_err : Rabs (PI - litR 314159265358979323846264338327950288 (-35)) <= 5e-36.
Proof. rewrite litR_dec. pose proof PI_dec as P. apply Rabs_le_between in P. change (IZR (10 ^ Z.pos 35)) with 100000000000000000000000000000000000. apply Rabs_le. lra. Qed.
Theorem C26_Li2_double (x : R) : exists v, cLi2_d RD (ofC eps_d (x, 0)) = ofC eps_d v /\
  Rabs (fst v - ReLi 2 x) <= 2 / 10 ^ 16 * Rmin 1 (Rabs x) /\ Rabs (snd v - ImLi 2 x) <= 2e-17 * Rabs (ImLi 2 x).
Proof.
  destruct (Li2_d_accuracy x) as (v & E & A). unfold RD in *. axis. destruct (axis_case x) as [[-> B]|[-> B]]; unfold ImLi; destruct (Rle_dec x 1); try lra; rewrite E.
  - exists (v, 0). split; [reflexivity|]. cbn [fst snd]. split; [exact A|]. rewrite Rminus_eq_0, Rabs_R0. lra.
  - change (lit (NumR eps_d) (31415926535897932) (-16)) with (Some (litR (31415926535897932) (-16))).
    pose proof pi_d_err as P. set (p := litR (31415926535897932) (-16)) in *.
    cbn [nlog NumR opp lift1]. rewrite olog_some by lra. cbn [mul div NumR lift2 lift1]. rewrite ?odiv_some by lra. cbn [mul div NumR lift2 lift1].
    exists (v, - (p * ln x ^ (2 - 1) / INR (fact (2 - 1)))). split; [unfold ofC; cbn [fst snd]; do 2 f_equal; cbn [Nat.sub fact pow INR Nat.mul Nat.add]; f_equal; field|].
    cbn [fst snd]. split; [exact A|]. apply (im_err p 5e-17); [exact B|exact P|lra].
Qed.
Theorem C26_Li2_float (x : R) : exists v, cLi2_f RF (ofC eps_f (x, 0)) = ofC eps_f v /\
  Rabs (fst v - ReLi 2 x) <= 31 / 10 ^ 8 * Rmin 1 (Rabs x) /\ Rabs (snd v - ImLi 2 x) <= 1.2e-9 * Rabs (ImLi 2 x).
Proof.
  destruct (Li2_f_accuracy x) as (v & E & A). unfold RF in *. axis. destruct (axis_case x) as [[-> B]|[-> B]]; unfold ImLi; destruct (Rle_dec x 1); try lra; rewrite E.
  - exists (v, 0). split; [reflexivity|]. cbn [fst snd]. split; [exact A|]. rewrite Rminus_eq_0, Rabs_R0. lra.
  - change (lit (NumR eps_f) (314159265) (-8)) with (Some (litR (314159265) (-8))).
    pose proof pi_f_err as P. set (p := litR (314159265) (-8)) in *.
    cbn [nlog NumR opp lift1]. rewrite olog_some by lra. cbn [mul div NumR lift2 lift1]. rewrite ?odiv_some by lra. cbn [mul div NumR lift2 lift1].
    exists (v, - (p * ln x ^ (2 - 1) / INR (fact (2 - 1)))). split; [unfold ofC; cbn [fst snd]; do 2 f_equal; cbn [Nat.sub fact pow INR Nat.mul Nat.add]; f_equal; field|].
    cbn [fst snd]. split; [exact A|]. apply (im_err p 3.6e-9); [exact B|exact P|lra].
Qed.
Theorem C26_Li2_long_double (x : R) : exists v, cLi2_l RL (ofC eps_l (x, 0)) = ofC eps_l v /\
  Rabs (fst v - ReLi 2 x) <= 23 / 10 ^ 21 * Rmin 1 (Rabs x) /\ Rabs (snd v - ImLi 2 x) <= 2e-36 * Rabs (ImLi 2 x).
Proof.
  destruct (Li2_l_accuracy x) as (v & E & A). unfold RL in *. axis. destruct (axis_case x) as [[-> B]|[-> B]]; unfold ImLi; destruct (Rle_dec x 1); try lra; rewrite E.
  - exists (v, 0). split; [reflexivity|]. cbn [fst snd]. split; [exact A|]. rewrite Rminus_eq_0, Rabs_R0. lra.
  - change (lit (NumR eps_l) (314159265358979323846264338327950288) (-35)) with (Some (litR (314159265358979323846264338327950288) (-35))).
    pose proof pi_l_err as P. set (p := litR (314159265358979323846264338327950288) (-35)) in *.
    cbn [nlog NumR opp lift1]. rewrite olog_some by lra. cbn [mul div NumR lift2 lift1]. rewrite ?odiv_some by lra. cbn [mul div NumR lift2 lift1].
    exists (v, - (p * ln x ^ (2 - 1) / INR (fact (2 - 1)))). split; [unfold ofC; cbn [fst snd]; do 2 f_equal; cbn [Nat.sub fact pow INR Nat.mul Nat.add]; f_equal; field|].
    cbn [fst snd]. split; [exact A|]. apply (im_err p 5e-36); [exact B|exact P|lra].
Qed.
Theorem C26_Li2_quad (x : R) : exists v, cLi2_q RQ (ofC eps_q (x, 0)) = ofC eps_q v /\
  Rabs (fst v - ReLi 2 x) <= 15 / 10 ^ 36 * Rmin 1 (Rabs x) /\ Rabs (snd v - ImLi 2 x) <= 2e-36 * Rabs (ImLi 2 x).
Proof.
  destruct (Li2_q_accuracy x) as (v & E & A). unfold RQ in *. axis. destruct (axis_case x) as [[-> B]|[-> B]]; unfold ImLi; destruct (Rle_dec x 1); try lra; rewrite E.
  - exists (v, 0). split; [reflexivity|]. cbn [fst snd]. split; [exact A|]. rewrite Rminus_eq_0, Rabs_R0. lra.
  - change (lit (NumR eps_q) (314159265358979323846264338327950288) (-35)) with (Some (litR (314159265358979323846264338327950288) (-35))).
    pose proof pi_l_err as P. set (p := litR (314159265358979323846264338327950288) (-35)) in *.
    cbn [nlog NumR opp lift1]. rewrite olog_some by lra. cbn [mul div NumR lift2 lift1]. rewrite ?odiv_some by lra. cbn [mul div NumR lift2 lift1].
    exists (v, - (p * ln x ^ (2 - 1) / INR (fact (2 - 1)))). split; [unfold ofC; cbn [fst snd]; do 2 f_equal; cbn [Nat.sub fact pow INR Nat.mul Nat.add]; f_equal; field|].
    cbn [fst snd]. split; [exact A|]. apply (im_err p 5e-36); [exact B|exact P|lra].
Qed.
Theorem C26_Li3_double (x : R) : exists v, cLi3_d RD (ofC eps_d (x, 0)) = ofC eps_d v /\
  Rabs (fst v - ReLi 3 x) <= 3 / 10 ^ 16 * Rmin 1 (Rabs x) + 1 / 10 ^ 16 * ln (Rmax 1 (Rabs x)) /\ Rabs (snd v - ImLi 3 x) <= 2e-17 * Rabs (ImLi 3 x).
Proof.
  destruct (Li3_d_accuracy x) as (v & E & A). unfold RD in *. axis. destruct (axis_case x) as [[-> B]|[-> B]]; unfold ImLi; destruct (Rle_dec x 1); try lra; rewrite E.
  - exists (v, 0). split; [reflexivity|]. cbn [fst snd]. split; [exact A|]. rewrite Rminus_eq_0, Rabs_R0. lra.
  - change (lit (NumR eps_d) (31415926535897932) (-16)) with (Some (litR (31415926535897932) (-16))).
    pose proof pi_d_err as P. set (p := litR (31415926535897932) (-16)) in *.
    cbn [nlog NumR opp lift1]. rewrite olog_some by lra. cbn [mul div NumR lift2 lift1]. rewrite ?odiv_some by lra. cbn [mul div NumR lift2 lift1].
    exists (v, - (p * ln x ^ (3 - 1) / INR (fact (3 - 1)))). split; [unfold ofC; cbn [fst snd]; do 2 f_equal; change (lit (NumR eps_d) (-5) (-1)) with (Some (litR (-5) (-1))); rewrite litR_mhalf; cbn [lift2]; f_equal; cbn [Nat.sub fact pow INR Nat.mul Nat.add]; field|].
    cbn [fst snd]. split; [exact A|]. apply (im_err p 5e-17); [exact B|exact P|lra].
Qed.
Theorem C26_Li4_double (x : R) : exists v, cLi4_d RD (ofC eps_d (x, 0)) = ofC eps_d v /\
  Rabs (fst v - ReLi 4 x) <= 2 / 10 ^ 16 * Rmin 1 (Rabs x) + 4 / 10 ^ 17 * (ln (Rmax 1 (Rabs x))) ^ 2 /\ Rabs (snd v - ImLi 4 x) <= 2e-17 * Rabs (ImLi 4 x).
Proof.
  destruct (Li4_d_accuracy x) as (v & E & A). unfold RD in *. axis. destruct (axis_case x) as [[-> B]|[-> B]]; unfold ImLi; destruct (Rle_dec x 1); try lra; rewrite E.
  - exists (v, 0). split; [reflexivity|]. cbn [fst snd]. split; [exact A|]. rewrite Rminus_eq_0, Rabs_R0. lra.
  - change (lit (NumR eps_d) (31415926535897932) (-16)) with (Some (litR (31415926535897932) (-16))).
    pose proof pi_d_err as P. set (p := litR (31415926535897932) (-16)) in *.
    cbn [nlog NumR opp lift1]. rewrite olog_some by lra. cbn [mul div NumR lift2 lift1]. rewrite ?odiv_some by lra. cbn [mul div NumR lift2 lift1].
    exists (v, - (p * ln x ^ (4 - 1) / INR (fact (4 - 1)))). split; [unfold ofC; cbn [fst snd]; do 2 f_equal; cbn [Nat.sub fact pow INR Nat.mul Nat.add]; f_equal; field|].
    cbn [fst snd]. split; [exact A|]. apply (im_err p 5e-17); [exact B|exact P|lra].
Qed.
