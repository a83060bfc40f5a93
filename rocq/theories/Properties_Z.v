(** * further parts of earlier claims *)
From Coq Require Import ZArith Reals List Bool Lra Lia Psatz.
From Coquelicot Require Import Coquelicot.
From Interval Require Import Tactic.
From Verif Require Import Num NumR Outcome Model_Tables Model_Zeta Eval_R Harmonic Cheb Properties_F Properties_G.
Import ListNotations.
Local Open Scope R_scope.

(** ** C08: digamma at every positive integer, including the ones below 7 that are moved up by the recurrence *)
Section D.
Variable ep : R.
Lemma drec_R c : forall (nu n : nat) s, (0 < n)%nat -> digamma_rec (NumR ep) c (Z.of_nat nu) (Z.of_nat n) (Some s) = Some (s - (H (n + nu - 1 + c) - H (n + nu - 1))).
Proof.
  induction c as [|c IH]; intros nu n s Hn; cbn [digamma_rec].
  - rewrite Nat.add_0_r. f_equal. ring.
  - cbn [sub div lit ofZ NumR]. replace (Z.of_nat nu + 1)%Z with (Z.of_nat (S nu)) by lia. replace (Z.of_nat n + Z.of_nat nu)%Z with (Z.of_nat (n + nu)) by lia.
    rewrite litR_int, odiv_some by (apply IZR_neq; lia). cbn [lift2]. rewrite IH by lia. f_equal. replace (n + S nu - 1 + c)%nat with (n + nu - 1 + S c)%nat by lia. replace (n + S nu - 1)%nat with (S (n + nu - 1)) by lia.
    cbn [H]. replace (S (n + nu - 1)) with (n + nu)%nat by lia. rewrite <- INR_IZR_INZ. unfold Rdiv. ring.
Qed.
Lemma digamma_R_small (m : nat) : (1 <= m < 7)%nat -> digamma (NumR ep) (Z.of_nat m) = Some (psia 7 - (H 6 - H (m - 1))).
Proof.
  intros Hm. unfold digamma. destruct (Z.leb_spec (Z.of_nat m) 0) as [?|_]; [lia|]. destruct (Z.ltb_spec (Z.of_nat m) 7) as [_|?]; [|lia].
  change (lit (NumR ep) 0 0) with (Some (litR 0 0)). rewrite (litR_int 0).
  pose proof (drec_R (Z.to_nat (7 - Z.of_nat m - 1)) 1 m 0 ltac:(lia)) as E. change (Z.of_nat 1) with 1%Z in E. rewrite E. clear E.
  replace (m + 1 - 1 + Z.to_nat (7 - Z.of_nat m - 1))%nat with 6%nat by lia. replace (m + 1 - 1)%nat with (S (m - 1)) by lia.
  cbn [add sub mul div lit ofZ nlog NumR]. unfold dc. cbn [nth_error DIGAMMA_C fst snd lit NumR].
  rewrite !(litR_int 1), !odiv_some, olog_some by (try lra; apply IZR_neq; lia). cbn [lift2]. f_equal. unfold psia. rewrite dig_poly, plit_unroll, litR_half.
  unfold lits. cbn [nth DIGAMMA_C]. unfold litp. cbn [fst snd]. rewrite ?litR_int. change (H (S (m - 1))) with (H (m - 1) + / INR (S (m - 1))). replace (S (m - 1)) with m by lia. rewrite <- INR_IZR_INZ. unfold Rdiv. rewrite !Rmult_1_l. ring.
Qed.
Lemma psia_7 : Rabs (gam + psia 7 - H 6) <= 2.3 / 10 ^ 15.
Proof. unfold gam, psia, cs, W. cbn [Pf H]. cbn [INR]. interval with (i_prec 100). Qed.
Lemma psia_mid (m : nat) : (7 <= m <= 20)%nat -> Rabs (gam + psia (INR m) - H (m - 1)) <= 2.3 / 10 ^ 15.
Proof.
  intros Hm. do 7 (destruct m as [|m]; [lia|]). do 14 (destruct m as [|m]; [unfold gam, psia, cs, W; cbn [Pf H Nat.sub]; cbn [INR]; interval with (i_prec 100)|]). lia.
Qed.
(** 0.5772... + psi(m) = 1 + 1/2 + ... + 1/(m-1) *)
Theorem C08_digamma_exact (m : nat) : (1 <= m)%nat ->
  exists v, digamma (NumR ep) (Z.of_nat m) = Some v /\ Rabs (57721566490153286 / 10 ^ 17 + v - (if (m =? 1)%nat then 0 else harm (m - 1))) <= 2.3 / 10 ^ 15.
Proof.
  intros Hm. replace (if (m =? 1)%nat then 0 else harm (m - 1)) with (H (m - 1)) by (destruct (Nat.eqb_spec m 1) as [->|D]; [reflexivity|apply H_harm; lia]). fold gam.
  destruct (le_lt_dec 7 m) as [L|L].
  - exists (psia (INR m)). split; [rewrite digamma_R by lia; rewrite <- INR_IZR_INZ; reflexivity|]. destruct (le_lt_dec m 20) as [U|U]; [apply psia_mid; lia|].
    pose proof (harmonic_asymp (m - 1) ltac:(lia)) as A. replace (INR (m - 1) + 1) with (INR m) in A by (rewrite <- S_INR; f_equal; lia). assert (0 < / INR (m - 1)) by (apply Rinv_0_lt_compat, lt_0_INR; lia). lra.
  - eexists. split; [apply digamma_R_small; lia|]. replace (gam + (psia 7 - (H 6 - H (m - 1))) - H (m - 1)) with (gam + psia 7 - H 6) by ring. exact psia_7.
Qed.
(** non-trivial case: digamma 3, reached through the recurrence *)
Example C08_digamma_3 : exists v, digamma (NumR ep) 3 = Some v /\ 0.92278433 <= v <= 0.92278434.
Proof.
  destruct (C08_digamma_exact 3 ltac:(lia)) as (v & E & B). exists v. split; [exact E|]. cbn [Nat.eqb] in B. apply Rabs_le_between in B. assert (HH : harm (3 - 1) = 1.5) by (unfold harm; cbn; lra). rewrite HH in B. lra.
Qed.
End D.
Theorem C08_digamma_nonpositive (N : num) m : (m <= 0)%Z -> digamma N m = nan N.
Proof. intros H. unfold digamma. destruct (Z.leb_spec m 0); [reflexivity|lia]. Qed.
