(** * Cl(n,x) for n >= 10 and Sl(n,x) for n >= 26 in exact arithmetic *)
From Coq Require Import Reals ZArith Lra Lia List Bool.
From Coquelicot Require Import Coquelicot.
From Verif Require Import Num Outcome NumR Eval_R Model_Cl Fourier Clausen Consts Cl_shape Proof_Cl Cl_full Series Red.
Local Open Scope R_scope.

Lemma zleb_false a b : (b < a)%Z -> (a <=? b)%Z = false. Proof. intros. apply Z.leb_gt. assumption. Qed.
Lemma zltb_false a b : (b <= a)%Z -> (a <? b)%Z = false. Proof. intros. apply Z.ltb_ge. assumption. Qed.
Lemma zeqb_false a b : (a <> b)%Z -> (a =? b)%Z = false. Proof. intros. apply Z.eqb_neq. assumption. Qed.

Lemma Clspec_even_pi n : Nat.even n = true -> Clspec n PI = 0.
Proof.
  intros E. pose proof (Clspec_per n (- PI) 1) as A. replace (- PI + 2 * PI * 1) with PI in A by ring. rewrite Clspec_opp in A. unfold par in A. rewrite E in A. lra.
Qed.
Lemma Clspec_even_Pd n : (2 <= n)%nat -> Nat.even n = true -> Rabs (Clspec n Pd) <= 4 / 10 ^ 18.
Proof.
  intros H E. pose proof Pd_err. pose proof PI_dec20. pose proof HPd. 
  replace (Clspec n Pd) with (Clspec n Pd - Clspec n PI) by (rewrite (Clspec_even_pi n E); ring).
  eapply Rle_trans; [apply Clspec_Lip'; [exact H|lra|lra]|]. rewrite Rabs_pos_eq by lra. lra.
Qed.
Lemma eps_lb : 2 / 10 ^ 16 <= eps_d.
Proof. unfold eps_d. apply (Rmult_le_reg_l (IZR (2 ^ 52))); [apply (IZR_lt 0); reflexivity|]. rewrite Rinv_r by (apply not_0_IZR; discriminate). change (IZR (2 ^ 52)) with 4503599627370496. lra. Qed.

Section ClN.
Variables (n : Z).
Hypothesis Hn : (10 <= n)%Z.
Local Notation m := (Z.to_nat n).
Definition Clpart (r : R) : R := if Nat.even m then psin m (Z.to_nat (cutoff eps_d n) - 1) r else pcos m (Z.to_nat (cutoff eps_d n) - 1) r.
Lemma cl_series_val r : cl_series RD n (Some r) = Val (Some (Clpart r)).
Proof.
  unfold cl_series, Clpart. rewrite is_even_nat by lia. destruct (Nat.even m); [apply sin_series_val|apply cos_series_val]; exact Hn.
Qed.
Lemma Clpart_err r : Rabs (Clpart r - Clspec m r) <= 37 / 9 * eps_d.
Proof.
  unfold Clpart, Clspec. destruct (Nat.even m).
  - apply cut_bound; [exact Hn|lra|lra|intros k; apply sterm_bd|apply sinser_series; lia].
  - apply cut_bound; [exact Hn|lra|lra|intros k; apply cterm_bd|apply cosser_series; lia].
Qed.
Theorem Cl_val x : Cl RD n (Some x) = Val (Some (
   if Nat.even m then (if Req_EM_T (redc Pd Sd x) 0 then 0 else if Req_EM_T (redc Pd Sd x) Pd then 0 else flipsg x * Clpart (redc Pd Sd x))
   else Clpart (redc Pd Sd x))).
Proof.
  unfold Cl. rewrite zltb_false by lia. rewrite !zeqb_false by lia. unfold Cl_range_reduce. rewrite is_even_nat by lia.
  unfold RD. rewrite flip_R, noflip_R. destruct (Nat.even m) eqn:E; cbv beta iota; cbn [andb].
  - cbn [NumR eqb lit car ocmp]. fold (NumR eps_d). rewrite ClPI_R. cbn [ocmp]. rewrite litR_int. unfold Reqb.
    destruct (Req_EM_T (redc Pd Sd x) 0) as [->|]; [reflexivity|]. destruct (Req_EM_T (redc Pd Sd x) Pd); [reflexivity|].
    unfold N_THRESH. rewrite zleb_false by lia. fold RD. rewrite cl_series_val. cbn [bind]. reflexivity.
  - unfold N_THRESH. rewrite zleb_false by lia. fold RD. rewrite cl_series_val. cbn [bind]. unfold RD. cbn [NumR mul lit car lift2]. rewrite litR_int, Rmult_1_l. reflexivity.
Qed.
Theorem Cl_series_accuracy x : exists v x', Cl RD n (Some x) = Val (Some v) /\ Rabs (v - Clspec m x') <= 37 / 9 * eps_d /\
  Rabs (x' - x) <= 6 / 10 ^ 19 * Rabs x + 1 / 10 ^ 19 /\ (Rabs x <= Pd -> x' = x).
Proof.
  eexists. exists (redx Pd Sd x). split; [apply Cl_val|]. split; [|split; [apply redx_d|apply (redx_small Pd Sd HPd)]].
  rewrite Cl_redx'. pose proof (Clpart_err (redc Pd Sd x)) as A. pose proof eps_lb as EL. destruct (Nat.even m) eqn:E.
  - destruct (Req_EM_T (redc Pd Sd x) 0) as [Z|Z].
    { rewrite Z. unfold Clspec. rewrite E, Fourier.sinser_0, Rmult_0_r, Rminus_0_r, Rabs_R0. lra. }
    destruct (Req_EM_T (redc Pd Sd x) Pd) as [Y|Y].
    { rewrite Y. unfold Rminus. rewrite Rplus_0_l, Rabs_Ropp, Rabs_mult, flipsg_abs, Rmult_1_l.
      eapply Rle_trans; [apply Clspec_even_Pd; [lia|exact E]|]. lra. }
    rewrite <- Rmult_minus_distr_l, Rabs_mult, flipsg_abs, Rmult_1_l. exact A.
  - rewrite Rmult_1_l. exact A.
Qed.
End ClN.

Section SlN.
Variables (n : Z).
Hypothesis Hn : (26 <= n)%Z.
Local Notation m := (Z.to_nat n).
Definition Slpart (r : R) : R := if Nat.even m then pcos m (Z.to_nat (cutoff eps_d n) - 1) r else psin m (Z.to_nat (cutoff eps_d n) - 1) r.
Lemma sl_series_val r : sl_series RD n (Some r) = Val (Some (Slpart r)).
Proof.
  unfold sl_series, Slpart. rewrite is_even_nat by lia. destruct (Nat.even m); [apply cos_series_val|apply sin_series_val]; lia.
Qed.
Lemma Slpart_err r : Rabs (Slpart r - Slspec m r) <= 4 / 25 * eps_d.
Proof.
  unfold Slpart, Slspec. destruct (Nat.even m).
  - apply cut_bound; [lia|lia|lra|intros k; apply cterm_bd|apply cosser_series; lia].
  - apply cut_bound; [lia|lia|lra|intros k; apply sterm_bd|apply sinser_series; lia].
Qed.
Theorem Sl_val x : Model_Cl.Sl RD n (Some x) = Val (Some (
   if Nat.even m then Slpart (redc Pd Sd x) else (if Req_EM_T (redc Pd Sd x) 0 then 0 else flipsg x * Slpart (redc Pd Sd x)))).
Proof.
  unfold Model_Cl.Sl. rewrite zltb_false by lia. unfold Sl_range_reduce. rewrite is_even_nat by lia.
  assert (P : Sl_poly RD n = None) by (unfold Sl_poly; apply nth_error_None; cbn [length]; lia).
  unfold RD. rewrite flip_R, noflip_R. fold RD. destruct (Nat.even m) eqn:E; cbv beta iota; cbn [andb negb].
  - rewrite P, sl_series_val. cbn [bind]. unfold RD. cbn [NumR mul lit car lift2]. rewrite litR_int, Rmult_1_l. reflexivity.
  - replace (eqb RD (Some (redc Pd Sd x)) (lit RD 0 0)) with (Reqb (redc Pd Sd x) 0) by (unfold RD; cbn [NumR eqb lit car ocmp]; rewrite litR_int; reflexivity). unfold Reqb.
    destruct (Req_EM_T (redc Pd Sd x) 0) as [->|]; [reflexivity|]. rewrite P, sl_series_val. reflexivity.
Qed.
Theorem Sl_series_accuracy x : exists v x', Model_Cl.Sl RD n (Some x) = Val (Some v) /\ Rabs (v - Slspec m x') <= 4 / 25 * eps_d /\
  Rabs (x' - x) <= 6 / 10 ^ 19 * Rabs x + 1 / 10 ^ 19 /\ (Rabs x <= Pd -> x' = x).
Proof.
  eexists. exists (redx Pd Sd x). split; [apply Sl_val|]. split; [|split; [apply redx_d|apply (redx_small Pd Sd HPd)]].
  rewrite Sl_redx. rewrite <- Nat.negb_even. pose proof (Slpart_err (redc Pd Sd x)) as A. pose proof eps_lb as EL. destruct (Nat.even m) eqn:E; cbn [negb].
  - rewrite Rmult_1_l. exact A.
  - destruct (Req_EM_T (redc Pd Sd x) 0) as [Z|Z].
    { rewrite Z. unfold Slspec. rewrite E, Fourier.sinser_0, Rmult_0_r, Rminus_0_r, Rabs_R0. lra. }
    rewrite <- Rmult_minus_distr_l, Rabs_mult, flipsg_abs, Rmult_1_l. exact A.
Qed.
End SlN.
