(** * Properties, part E: range reduction (C11), series branch of Cl (C21)

    Exact arithmetic (NumR, every machine epsilon [ep] > 0 where it matters). *)
From Coq Require Import Reals Lra Lia ZArith Bool.
From Flocq Require Import Core.
From Coquelicot Require Import Coquelicot.
From Verif Require Import Num Outcome Model_Cl16 Model_Cl NumR Eval_R Fourier Clausen Proof_Cl Cl_full Series Red Proof_Series Reduce Properties_C.
Open Scope R_scope.

(** ** C11 *)
(** x is reduced to r with sign s: |x| = t + 2 P k, 0 <= t < 2P; t itself when t <= P, T - t otherwise.
    The sign changes at each of the two reflections. *)
Definition reduces (P T x r s : R) : Prop :=
  exists (k : Z) (t : R), Rabs x = t + IZR k * (2 * P) /\ 0 <= t < 2 * P /\
    ((t <= P /\ r = t /\ s = (if Rlt_dec x 0 then -1 else 1)) \/ (P < t /\ r = T - t /\ s = (if Rlt_dec x 0 then 1 else -1))).
(** the result with its sign changed when s = -1 *)
Definition signed (s : R) (v : out (option R)) : out (option R) :=
  match v with Val (Some r) => Val (Some (s * r)) | Val None => Val None | Ub => Ub | NoFuel => NoFuel end.
Definition two_pi_l : R := 628125 / 10 ^ 5 + 19353071795864769252867665590057683943 / 10 ^ 40.

Lemma Zeven_nat n : (0 <= n)%Z -> Z.even n = Nat.even (Z.to_nat n).
Proof.
  intros H. apply eq_true_iff_eq. rewrite Z.even_spec, Nat.even_spec. split; intros [k E]; [exists (Z.to_nat k)|exists (Z.of_nat k)]; lia.
Qed.
Lemma use_shape P T flip f : 3 < P < 4 -> shaped P T flip f -> forall x r s, reduces P T x r s -> 0 <= r <= P ->
  f x = if flip then signed s (f r) else f r.
Proof.
  intros HP SH x r s (k & t & E & Ht & D) Hr. apply (shaped_red P T HP flip f SH x k t r s Ht E (proj1 Hr)); unfold sg.
  - intros L. destruct D as [(_ & A & B)|(A & _)]; [split; assumption|lra].
  - intros L. destruct D as [(A & _)|(_ & A & B)]; [lra|]. split; [exact A|]. rewrite B. destruct (Rlt_dec x 0); lra.
  - destruct D as [(A & _)|(_ & A & _)]; [right; exact A|left; lra].
Qed.
(** every angle reduces *)
Lemma reduces_ex P T x : 3 < P < 4 -> exists r s, reduces P T x r s.
Proof.
  intros HP. destruct (redk_ok P (Rabs x) ltac:(lra) (Rabs_pos x)) as [K B]. set (t := Rabs x - 2 * P * IZR (redk P (Rabs x))) in *.
  assert (E : Rabs x = t + IZR (redk P (Rabs x)) * (2 * P)) by (unfold t; ring).
  destruct (Rle_lt_dec t P) as [L|L]; [exists t, (if Rlt_dec x 0 then -1 else 1)|exists (T - t), (if Rlt_dec x 0 then 1 else -1)]; exists (redk P (Rabs x)), t; (split; [exact E|]; split; [exact B|]); [left|right]; repeat split; assumption.
Qed.
(** ... into [0,pi], except in the double versions for |x| within 3e-18 below a multiple of the period *)
Lemma reduces_rng_d x r s : reduces pi_d two_pi_d x r s -> - (4 / 10 ^ 18) <= r <= pi_d.
Proof. intros (k & t & E & Ht & [(A & -> & _)|(A & -> & _)]); unfold two_pi_d, pi_d in *; lra. Qed.
Lemma reduces_rng_l x r s : reduces pi_l two_pi_l x r s -> 0 <= r <= pi_l + / 10 ^ 34.
Proof. intros (k & t & E & Ht & [(A & -> & _)|(A & -> & _)]); unfold two_pi_l, pi_l in *; lra. Qed.

Theorem C11_reduction_total_double : forall x : R, exists r s : R, reduces pi_d two_pi_d x r s /\ - (4 / 10 ^ 18) <= r <= pi_d.
Proof. intros x. destruct (reduces_ex pi_d two_pi_d x HPd) as (r & s & H). exists r, s. split; [exact H|exact (reduces_rng_d x r s H)]. Qed.
Theorem C11_reduction_total_long_double : forall x : R, exists r s : R, reduces pi_l two_pi_l x r s /\ 0 <= r <= pi_l + / 10 ^ 34.
Proof. intros x. destruct (reduces_ex pi_l two_pi_l x HPl) as (r & s & H). exists r, s. split; [exact H|exact (reduces_rng_l x r s H)]. Qed.

Theorem C11_Cl_reduction : forall (ep : R) (n : Z) (x r s : R), (1 <= n)%Z -> reduces pi_d two_pi_d x r s -> 0 <= r ->
  Cl (NumR ep) n (Some x) = if Z.even n then signed s (Cl (NumR ep) n (Some r)) else Cl (NumR ep) n (Some r).
Proof.
  intros ep n x r s Hn H Hr. pose proof (reduces_rng_d x r s H).
  rewrite (use_shape Pd Sd _ _ HPd (Cl_shaped ep n Hn) x r s H ltac:(change Pd with pi_d; lra)). rewrite is_even_nat by lia.
  rewrite Zeven_nat by lia. reflexivity.
Qed.
Theorem C11_Sl_reduction : forall (ep : R) (n : Z) (x r s : R), (1 <= n)%Z -> reduces pi_d two_pi_d x r s -> 0 <= r ->
  Model_Cl.Sl (NumR ep) n (Some x) = if Z.odd n then signed s (Model_Cl.Sl (NumR ep) n (Some r)) else Model_Cl.Sl (NumR ep) n (Some r).
Proof.
  intros ep n x r s Hn H Hr. pose proof (reduces_rng_d x r s H).
  rewrite (use_shape Pd Sd _ _ HPd (Sl_shaped ep n Hn) x r s H ltac:(change Pd with pi_d; lra)). rewrite is_even_nat by lia.
  rewrite <- Z.negb_even, Zeven_nat by lia. reflexivity.
Qed.
Theorem C11_Cl_long_double_reduction : forall ep x r s : R, reduces pi_l two_pi_l x r s -> r <= pi_l ->
  Val (Cl2_l (NumR ep) (Some x)) = signed s (Val (Cl2_l (NumR ep) (Some r))) /\ Cl3_l (NumR ep) (Some x) = Cl3_l (NumR ep) (Some r) /\
  Val (Cl4_l (NumR ep) (Some x)) = signed s (Val (Cl4_l (NumR ep) (Some r))) /\ Cl5_l (NumR ep) (Some x) = Cl5_l (NumR ep) (Some r) /\
  Val (Cl6_l (NumR ep) (Some x)) = signed s (Val (Cl6_l (NumR ep) (Some r))).
Proof.
  intros ep x r s H Hr. pose proof (reduces_rng_l x r s H) as B. assert (R0 : 0 <= r <= Pl) by (change Pl with pi_l; lra).
  destruct (Cll_shaped ep) as (S2 & S3 & S4 & S5 & S6).
  split; [exact (use_shape Pl Proof_Cl.Sl _ _ HPl S2 x r s H R0)|]. split; [pose proof (use_shape Pl Proof_Cl.Sl _ _ HPl S3 x r s H R0) as E; injection E; auto|].
  split; [exact (use_shape Pl Proof_Cl.Sl _ _ HPl S4 x r s H R0)|]. split; [pose proof (use_shape Pl Proof_Cl.Sl _ _ HPl S5 x r s H R0) as E; injection E; auto|].
  exact (use_shape Pl Proof_Cl.Sl _ _ HPl S6 x r s H R0).
Qed.
(** periodic with the period 2*pi_d used in the code (on each side of 0, by parity C09) *)
Theorem C11_periodic : forall (ep : R) (n k : Z) (x : R), (1 <= n)%Z -> (0 <= k)%Z -> 0 <= x ->
  Cl (NumR ep) n (Some (x + IZR k * (2 * pi_d))) = Cl (NumR ep) n (Some x) /\ Model_Cl.Sl (NumR ep) n (Some (x + IZR k * (2 * pi_d))) = Model_Cl.Sl (NumR ep) n (Some x).
Proof.
  intros ep n k x Hn Hk Hx. split.
  - exact (shaped_per Pd Sd HPd _ _ (Cl_shaped ep n Hn) x k Hx Hk).
  - exact (shaped_per Pd Sd HPd _ _ (Sl_shaped ep n Hn) x k Hx Hk).
Qed.
Theorem C11_periodic_long_double : forall (ep : R) (k : Z) (x : R), (0 <= k)%Z -> 0 <= x ->
  Cl2_l (NumR ep) (Some (x + IZR k * (2 * pi_l))) = Cl2_l (NumR ep) (Some x) /\ Cl3_l (NumR ep) (Some (x + IZR k * (2 * pi_l))) = Cl3_l (NumR ep) (Some x) /\
  Cl4_l (NumR ep) (Some (x + IZR k * (2 * pi_l))) = Cl4_l (NumR ep) (Some x) /\ Cl5_l (NumR ep) (Some (x + IZR k * (2 * pi_l))) = Cl5_l (NumR ep) (Some x) /\
  Cl6_l (NumR ep) (Some (x + IZR k * (2 * pi_l))) = Cl6_l (NumR ep) (Some x).
Proof.
  intros ep k x Hk Hx. destruct (Cll_shaped ep) as (S2 & S3 & S4 & S5 & S6).
  pose proof (shaped_per Pl Proof_Cl.Sl HPl _ _ S2 x k Hx Hk) as E2. pose proof (shaped_per Pl Proof_Cl.Sl HPl _ _ S3 x k Hx Hk) as E3.
  pose proof (shaped_per Pl Proof_Cl.Sl HPl _ _ S4 x k Hx Hk) as E4. pose proof (shaped_per Pl Proof_Cl.Sl HPl _ _ S5 x k Hx Hk) as E5.
  pose proof (shaped_per Pl Proof_Cl.Sl HPl _ _ S6 x k Hx Hk) as E6.
  cbv beta in *. injection E2. injection E3. injection E4. injection E5. injection E6. auto.
Qed.
(** non-vacuity: 4 reduces to two_pi - 4 with a sign change, -9 to 9 - 2 pi_d keeping the sign of x *)
Example C11_nonvacuous : reduces pi_d two_pi_d 4 (two_pi_d - 4) (-1) /\ 0 <= two_pi_d - 4 /\ reduces pi_d two_pi_d (-9) (9 - 2 * pi_d) (-1).
Proof.
  split; [|split].
  - exists 0%Z, 4. rewrite Rabs_pos_eq by lra. unfold pi_d. split; [ring|]. split; [lra|]. right. destruct (Rlt_dec 4 0); repeat split; lra.
  - unfold two_pi_d. lra.
  - exists 1%Z, (9 - 2 * pi_d). rewrite Rabs_left by lra. unfold pi_d. split; [ring|]. split; [lra|]. left. destruct (Rlt_dec (-9) 0); repeat split; lra.
Qed.

(** ** C21 *)
(** K = ceil(eps^(-1/n)) terms, eps = 2^-52 *)
Definition n_terms (n : Z) : Z := Zceil (Rpower (/ 2 ^ 52) (-1 / IZR n)).
Definition partial_sin (n K : nat) (x : R) : R := sum_n (fun k => sin (INR (S k) * x) / INR (S k) ^ n) (K - 1).
Definition partial_cos (n K : nat) (x : R) : R := sum_n (fun k => cos (INR (S k) * x) / INR (S k) ^ n) (K - 1).
Lemma eps_eq : eps_d = / 2 ^ 52. Proof. unfold eps_d. f_equal. rewrite pow_IZR. reflexivity. Qed.
Lemma n_terms_cutoff n : n_terms n = cutoff eps_d n. Proof. unfold n_terms, cutoff. rewrite eps_eq. reflexivity. Qed.
Theorem C21_term_count : forall n : Z, (10 <= n)%Z -> (2 <= n_terms n <= 37)%Z.
Proof. intros n H. rewrite n_terms_cutoff. apply K_rng. exact H. Qed.
Theorem C21_partial_sum : forall (n : Z) (x : R), (10 <= n)%Z -> 0 < x < pi_d ->
  Cl RD n (Some x) = Val (Some (if Z.even n then partial_sin (Z.to_nat n) (Z.to_nat (n_terms n)) x else partial_cos (Z.to_nat n) (Z.to_nat (n_terms n)) x)).
Proof.
  intros n x H Hx. rewrite (Cl_val n H). change pi_d with Pd in Hx. destruct (red_id Pd Sd HPd x ltac:(lra)) as (_ & D & SG). rewrite D, flipsg_sgP, SG.
  rewrite Zeven_nat by lia.
  f_equal. f_equal. unfold Clpart, partial_sin, partial_cos. rewrite n_terms_cutoff, !sum_n_Reals.
  destruct (Nat.even (Z.to_nat n)); [|reflexivity]. destruct (Req_EM_T x 0); [lra|]. destruct (Req_EM_T x Pd); [lra|]. apply Rmult_1_l.
Qed.
(** any angle: the neglected tail is below 4.2 eps; x' is x up to the error of the pi literals *)
Theorem C21_Cl_series_accuracy : forall (n : Z) (x : R), (10 <= n)%Z ->
  exists v s x', Cl RD n (Some x) = Val (Some v) /\ (if Z.even n then sin_sum (Z.to_nat n) x' s else cos_sum (Z.to_nat n) x' s) /\
    Rabs (v - s) <= 42 / 10 * / 2 ^ 52 /\ Rabs (x' - x) <= 6 / 10 ^ 19 * Rabs x + 1 / 10 ^ 19 /\ (Rabs x <= pi_d -> x' = x).
Proof.
  intros n x H. destruct (Cl_series_accuracy n H x) as (v & x' & V & E & D & SM). exists v, (Clspec (Z.to_nat n) x'), x'. split; [exact V|].
  split; [|split; [eapply Rle_trans; [exact E|rewrite eps_eq; assert (0 < / 2 ^ 52) by (apply Rinv_0_lt_compat, pow_lt; lra); lra]|split; [exact D|exact SM]]].
  rewrite Zeven_nat by lia.
  destruct (Nat.even (Z.to_nat n)) eqn:F; [apply clspec_sin|apply clspec_cos]; (lia || exact F).
Qed.
Example C21_nonvacuous : n_terms 10 = 37%Z /\ n_terms 26 = 4%Z.
Proof. rewrite !n_terms_cutoff. split; [exact cutoff_10|exact cutoff_26]. Qed.
