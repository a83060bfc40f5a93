(** * Range reduction of Cl.cpp / Sl.cpp in exact arithmetic *)
From Coq Require Import Reals ZArith Lra Lia List Bool.
From Coquelicot Require Import Coquelicot.
From Verif Require Import Num Outcome NumR Eval_R Model_Cl Fourier Clausen Consts Cl_shape Proof_Cl Cl_full Series.
Local Open Scope R_scope.

Lemma ClPI_R ep : Cl_PI (NumR ep) = Some Pd.
Proof. exact (PId_R ep). Qed.
Definition flipsg (x : R) : R := sg x * (if Rlt_dec Pd (redb Pd x) then -1 else 1).
Lemma flipsg_abs x : Rabs (flipsg x) = 1.
Proof. unfold flipsg, sg. destruct (Rlt_dec x 0), (Rlt_dec Pd (redb Pd x)); (rewrite Rabs_left by lra) || (rewrite Rabs_pos_eq by lra); lra. Qed.
Lemma p1R ep : lit (NumR ep) 19353071795864769253 (-22) = Some (IZR 19353071795864769253 / 10 ^ 22).
Proof. exact (p1d_R ep). Qed.
Lemma flip_R ep x : range_reduce_flip (NumR ep) (Some x) = (Some (flipsg x), Some (redc Pd Sd x)).
Proof.
  unfold range_reduce_flip, Cl_PI2. rewrite ClPI_R. pose proof HPd as HP.
  assert (S1 : (if ltb (NumR ep) (Some x) (lit (NumR ep) 0 0) then @pair (car (NumR ep)) (car (NumR ep)) (opp (NumR ep) (Some x)) (lit (NumR ep) (-1) 0) else @pair (car (NumR ep)) (car (NumR ep)) (Some x) (lit (NumR ep) 1 0)) = @pair (car (NumR ep)) (car (NumR ep)) (Some (Rabs x)) (Some (sg x))).
  { cbn [NumR lit ltb opp car ocmp lift1]. rewrite !litR_int. unfold Rltb, sg. destruct (Rlt_dec x 0); [rewrite Rabs_left|rewrite Rabs_pos_eq]; reflexivity || lra. }
  cbv zeta. rewrite S1. cbv beta iota. rewrite redk_R by lra. fold (redb Pd x). rewrite p1R.
  cbn [NumR lit ltb opp sub add car ocmp lift1 lift2]. unfold Rltb, redc, flipsg. destruct (Rlt_dec Pd (redb Pd x)); f_equal; f_equal; [| | ]; try ring.
  rewrite HSd; ring.
Qed.
Lemma noflip_R ep x : range_reduce_noflip (NumR ep) (Some x) = Some (redc Pd Sd x).
Proof.
  unfold range_reduce_noflip, Cl_PI2. rewrite ClPI_R. pose proof HPd as HP.
  assert (S1 : (if ltb (NumR ep) (Some x) (lit (NumR ep) 0 0) then opp (NumR ep) (Some x) else Some x) = Some (Rabs x)).
  { cbn [NumR lit ltb opp car ocmp lift1]. rewrite !litR_int. unfold Rltb. destruct (Rlt_dec x 0); [rewrite Rabs_left|rewrite Rabs_pos_eq]; reflexivity || lra. }
  cbv zeta. rewrite S1. rewrite redk_R by lra. fold (redb Pd x). rewrite p1R.
  cbn [NumR lit ltb opp sub add car ocmp lift1 lift2]. unfold Rltb, redc. destruct (Rlt_dec Pd (redb Pd x)); [f_equal; rewrite HSd; ring|reflexivity].
Qed.

Section Sym.
Variables (F : R -> R) (od : bool).
Hypothesis F_opp : forall x, F (- x) = (if od then -1 else 1) * F x.
Hypothesis F_per : forall x m, F (x + 2 * PI * IZR m) = F x.
Lemma F_redx x : F (redx Pd Sd x) = (if od then flipsg x else 1) * F (redc Pd Sd x).
Proof.
  unfold redx, flipsg. set (h := if Rlt_dec Pd (redb Pd x) then 2 * PI - redc Pd Sd x else redc Pd Sd x).
  assert (E : F (sg x * (h + 2 * PI * IZR (redk Pd (Rabs x)))) = (if od then sg x else 1) * F h).
  { unfold sg. destruct (Rlt_dec x 0).
    - replace (-1 * (h + 2 * PI * IZR (redk Pd (Rabs x)))) with (- (h + 2 * PI * IZR (redk Pd (Rabs x)))) by ring.
      rewrite F_opp, F_per. destruct od; reflexivity.
    - rewrite Rmult_1_l, F_per. destruct od; ring. }
  rewrite E. unfold h. destruct (Rlt_dec Pd (redb Pd x)); [|destruct od; ring].
  replace (F (2 * PI - redc Pd Sd x)) with ((if od then -1 else 1) * F (redc Pd Sd x)); [destruct od; ring|].
  rewrite <- F_opp, <- (F_per (- redc Pd Sd x) 1). f_equal. ring.
Qed.
End Sym.

Definition Slspec (n : nat) (x : R) : R := if Nat.even n then cosser n x else sinser n x.
Lemma Slspec_opp n x : Slspec n (- x) = (if Nat.odd n then -1 else 1) * Slspec n x.
Proof.
  unfold Slspec, sinser, cosser. rewrite <- Nat.negb_even. destruct (Nat.even n); cbn [negb].
  - rewrite Rmult_1_l. apply Series_ext. intros k. unfold cterm. rewrite Ropp_mult_distr_r_reverse, cos_neg. reflexivity.
  - rewrite <- Series_scal_l. apply Series_ext. intros k. unfold sterm. rewrite Ropp_mult_distr_r_reverse, sin_neg. unfold Rdiv. ring.
Qed.
Lemma Slspec_per n x m : Slspec n (x + 2 * PI * IZR m) = Slspec n x.
Proof.
  unfold Slspec, sinser, cosser. destruct (Nat.even n); apply Series_ext; intros k; unfold sterm, cterm; f_equal; [apply cos_kper|apply sin_kper].
Qed.
Lemma Cl_redx' n x : Clspec n (redx Pd Sd x) = (if Nat.even n then flipsg x else 1) * Clspec n (redc Pd Sd x).
Proof. apply F_redx; [intros y; rewrite Clspec_opp; reflexivity|intros; apply Clspec_per]. Qed.
Lemma Sl_redx n x : Slspec n (redx Pd Sd x) = (if Nat.odd n then flipsg x else 1) * Slspec n (redc Pd Sd x).
Proof. apply F_redx; [intros y; apply Slspec_opp|intros; apply Slspec_per]. Qed.
Lemma redx_d x : Rabs (redx Pd Sd x - x) <= 6 / 10 ^ 19 * Rabs x + 1 / 10 ^ 19.
Proof.
  eapply Rle_trans; [apply (redx_dist Pd Sd HPd x)|apply dist_d].
Qed.
Lemma is_even_nat n : (0 <= n)%Z -> is_even n = Nat.even (Z.to_nat n).
Proof.
  intros H. unfold is_even. rewrite Z.rem_mod_nonneg by lia. destruct (Nat.even (Z.to_nat n)) eqn:E.
  - apply Nat.even_spec in E. destruct E as [k E]. apply Z.eqb_eq. replace n with (Z.of_nat k * 2)%Z by lia. apply Z_mod_mult.
  - apply Z.eqb_neq. intros M. apply Z.mod_divide in M; [|lia]. destruct M as [q M]. assert (T : Nat.even (Z.to_nat n) = true); [|congruence].
    apply Nat.even_spec. exists (Z.to_nat q). lia.
Qed.
