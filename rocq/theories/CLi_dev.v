(** * Comparing the code's coefficient tables with the reference polynomials *)
From Coq Require Import ZArith Reals List Bool Lra Lia Psatz.
From Bignums Require Import BigZ.
From Coquelicot Require Import Coquelicot.
From Interval Require Import Tactic.
From Verif Require Import Num NumR Spec Eval_R Consts Cplx Ccalc CLi CLi_disc CLi_inv Cpoly CLi_unity CLi_exp CLi_T Polylog Polylog_eqs Fourier Bern Sl_closed Clausen_vals Poly_check Cheb_big CLi_ref CLi_region Clausen Rest CLi_code CLi_eval.
Import ListNotations.
Local Open Scope R_scope.

(** r is known up to E/DD by the integer list *)
Definition rel (E : Z) (r : list R) (z : list Z) : Prop := Forall2 (fun a c => Rabs (a - IZR c / IZR DD) <= IZR E / IZR DD) r z.
Definition ones (l : list Z) : list Z := map (fun _ => 1%Z) l.
Lemma ub_nonneg p q l : (0 < q)%Z -> (0 <= p)%Z -> (0 <= ub p q l)%Z.
Proof. intros Hq Hp. induction l as [|c l IH]; cbn [ub]; [lia|]. pose proof (Z.div_pos (p * ub p q l) q ltac:(nia) Hq). lia. Qed.
Lemma rel_ok E r z p q x : (0 <= E)%Z -> (0 < q)%Z -> (0 <= p)%Z -> rel E r z -> Cmod x <= IZR p / IZR q ->
  Cmod (Cminus (cpev r x) (cpev (zl DD z) x)) <= IZR E * IZR (ub p q (ones z)) / IZR DD.
Proof.
  intros HE Hq Hp H Hx. pose proof DDpos as D0. assert (Q0 : 0 < IZR q) by (apply (IZR_lt 0), Hq).
  induction H as [|a c r z Hac HR IH].
  - cbn [cpev zl map ones ub]. replace (Cminus (RtoC 0) (RtoC 0)) with (RtoC 0) by ring. rewrite Cmod_0. lra.
  - cbn [cpev zl map ones ub]. fold (ones z). fold (zl DD z). set (A := cpev r x) in *. set (B := cpev (zl DD z) x) in *.
    replace (Cminus (Cplus (RtoC a) (Cmult x A)) (Cplus (RtoC (IZR c / IZR DD)) (Cmult x B))) with (Cplus (RtoC (a - IZR c / IZR DD)) (Cmult x (Cminus A B))) by (rewrite RtoC_minus; ring).
    eapply Rle_trans; [apply Cmod_triangle|]. rewrite Cmod_mult, Cmod_R.
    pose proof (Cmod_ge_0 x). pose proof (Cmod_ge_0 (Cminus A B)). set (u := ub p q (ones z)) in *. assert (U0 : (0 <= u)%Z) by (apply ub_nonneg; assumption).
    assert (F : IZR p / IZR q * IZR u <= IZR (p * u / q + 1)).
    { rewrite plus_IZR. pose proof (Z.div_mod (p * u) q ltac:(lia)) as DM. pose proof (Z.mod_pos_bound (p * u) q Hq) as MB. set (t := (p * u / q)%Z) in *.
      assert (K : IZR p * IZR u <= (IZR t + 1) * IZR q). { rewrite <- mult_IZR, <- plus_IZR, <- mult_IZR. apply IZR_le. nia. }
      apply Rmult_le_reg_r with (IZR q); [exact Q0|]. replace (IZR p / IZR q * IZR u * IZR q) with (IZR p * IZR u) by (field; lra). exact K. }
    assert (M : Cmod x * Cmod (Cminus A B) <= IZR p / IZR q * (IZR E * IZR u / IZR DD)) by (apply Rmult_le_compat; assumption).
    change (Z.abs 1) with 1%Z. rewrite plus_IZR. apply (IZR_le 0) in HE.
    assert (M2 : IZR E * (IZR p / IZR q * IZR u) <= IZR E * IZR (p * u / q + 1)) by (apply Rmult_le_compat_l; assumption).
    apply Rmult_le_reg_r with (IZR DD); [exact D0|].
    replace (IZR E * (1 + IZR (p * u / q + 1)) / IZR DD * IZR DD) with (IZR E + IZR E * IZR (p * u / q + 1)) by (field; lra).
    assert (M3 : (Rabs (a - IZR c / IZR DD)) * IZR DD <= IZR E) by (apply Rmult_le_reg_r with (/ IZR DD); [apply Rinv_0_lt_compat, D0|]; replace (Rabs (a - IZR c / IZR DD) * IZR DD * / IZR DD) with (Rabs (a - IZR c / IZR DD)) by (field; lra); exact Hac).
    assert (M4 : Cmod x * Cmod (Cminus A B) * IZR DD <= IZR E * (IZR p / IZR q * IZR u)) by (apply Rmult_le_compat_r with (r := IZR DD) in M; [|lra]; replace (IZR p / IZR q * (IZR E * IZR u / IZR DD) * IZR DD) with (IZR E * (IZR p / IZR q * IZR u)) in M by (field; lra); exact M).
    lra.
Qed.
(** ** the code's fractions *)
Definition qlz (l : list (Z * Z)) : list Z := map (fun p => (fst p * DD / snd p)%Z) l.
Lemma div_err a b : (0 < b)%Z -> Rabs (IZR a / IZR b - IZR (a / b)) <= 1.
Proof.
  intros Hb. pose proof (Z.div_mod a b ltac:(lia)) as DM. pose proof (Z.mod_pos_bound a b Hb) as MB. assert (B0 : 0 < IZR b) by (apply (IZR_lt 0), Hb).
  assert (E : IZR a / IZR b - IZR (a / b) = IZR (a mod b) / IZR b).
  { rewrite DM at 1. rewrite plus_IZR, mult_IZR. field. lra. }
  rewrite E. destruct MB as [M1 M2]. apply (IZR_le 0) in M1. apply IZR_lt in M2. rewrite Rabs_pos_eq by (apply Rle_mult_inv_pos; assumption).
  apply Rmult_le_reg_r with (IZR b); [exact B0|]. unfold Rdiv. rewrite Rmult_assoc, Rinv_l by lra. lra.
Qed.
Lemma qlz_rel l : forallb (fun p => (0 <? snd p)%Z) l = true -> rel 1 (map rq l) (qlz l).
Proof.
  intros H. induction l as [|[a b] l IH]; [constructor|]. cbn [forallb snd] in H. apply andb_true_iff in H. destruct H as [H1 H2]. apply Z.ltb_lt in H1.
  cbn [map qlz]. constructor; [|apply IH, H2]. unfold rq. cbn [fst snd]. pose proof DDpos as D0. pose proof (div_err (a * DD) b H1) as D. rewrite mult_IZR in D. assert (B0 : 0 < IZR b) by (apply (IZR_lt 0), H1).
  replace (IZR a / IZR b - IZR (a * DD / b) / IZR DD) with ((IZR a * IZR DD / IZR b - IZR (a * DD / b)) * / IZR DD) by (field; split; lra).
  rewrite Rabs_mult, (Rabs_pos_eq (/ IZR DD)) by (apply Rlt_le, Rinv_0_lt_compat, D0). apply Rmult_le_compat_r; [apply Rlt_le, Rinv_0_lt_compat, D0|]. exact D.
Qed.
Definition bqlz (l : list (Z * Z)) : list bigZ := let D := BigZ.of_Z DD in map (fun p => BigZ.div (BigZ.mul (BigZ.of_Z (fst p)) D) (BigZ.of_Z (snd p))) l.
Lemma bqlz_ok l : toZ (bqlz l) = qlz l.
Proof. unfold toZ, bqlz, qlz. rewrite map_map. apply map_ext. intros [a b]. cbn [fst snd]. rewrite BigZ.spec_div, BigZ.spec_mul, !BigZ.spec_of_Z. reflexivity. Qed.
(** the check: |code - reference| <= c / 10^k for |x| <= p/q *)
Definition chkD (p q : Z) (l : list (Z * Z)) (rz : list Z) (E c k : Z) : bool :=
  forallb (fun p => (0 <? snd p)%Z) l &&
  (let bp := BigZ.of_Z p in let bq := BigZ.of_Z q in let a := bqlz l in let r := ofZl rz in
   BigZ.leb (BigZ.mul (BigZ.add (BigZ.add (bub bp bq (bsubz a r)) (bub bp bq (ofZl (ones (qlz l))))) (BigZ.mul (BigZ.of_Z E) (bub bp bq (ofZl (ones rz))))) (BigZ.of_Z (10 ^ k)))
            (BigZ.mul (BigZ.of_Z c) (BigZ.of_Z DD))).
Lemma toZ_ofZl l : toZ (ofZl l) = l.
Proof. unfold toZ, ofZl. rewrite map_map. rewrite <- (map_id l) at 2. apply map_ext. intros a. apply BigZ.spec_of_Z. Qed.
Lemma zl_sub a : forall b x, Cminus (cpev (zl DD a) x) (cpev (zl DD b) x) = cpev (zl DD (subz a b)) x.
Proof.
  intros b x. pose proof DDpos. rewrite !cz_zl by discriminate. rewrite cz_sub. field. apply RtoC_neq. lra.
Qed.
Lemma ones_len l l' : length l = length l' -> ones l = ones l'.
Proof. revert l'. induction l as [|a l IH]; intros [|b l'] H; try discriminate; [reflexivity|]. cbn. f_equal. apply IH. cbn in H. lia. Qed.
Lemma chkD_ok p q l r rz E c k x : (0 <= E)%Z -> (0 < q)%Z -> (0 <= p)%Z -> (0 <= k)%Z -> rel E r rz -> chkD p q l rz E c k = true -> Cmod x <= IZR p / IZR q ->
  Cmod (Cminus (cpev (map rq l) x) (cpev r x)) <= IZR c / 10 ^ Z.to_nat k.
Proof.
  intros HE Hq Hp Hk HR HC Hx. unfold chkD in HC. apply andb_true_iff in HC. destruct HC as [C1 C2]. cbv zeta in C2.
  rewrite BigZ.spec_leb in C2. rewrite BigZ.spec_mul, !BigZ.spec_add, !BigZ.spec_mul, !bub_ok, bsubz_ok, bqlz_ok, !toZ_ofZl, !BigZ.spec_of_Z in C2. apply Z.leb_le in C2.
  pose proof DDpos as D0. pose proof (rel_ok 1 _ _ p q x ltac:(lia) Hq Hp (qlz_rel l C1) Hx) as A1. pose proof (rel_ok E _ _ p q x HE Hq Hp HR Hx) as A2.
  pose proof (ub_ok p q (subz (qlz l) rz) x Hq Hp Hx) as A3.
  set (a := cpev (map rq l) x) in *. set (b := cpev r x) in *. 
  assert (A4 : Cmod (Cminus (cpev (zl DD (qlz l)) x) (cpev (zl DD rz) x)) <= IZR (ub p q (subz (qlz l) rz)) / IZR DD).
  { rewrite zl_sub, cz_zl by discriminate. rewrite Cmod_div by (apply RtoC_neq; lra). rewrite Cmod_R, (Rabs_pos_eq (IZR DD)) by lra.
    apply Rmult_le_compat_r; [apply Rlt_le, Rinv_0_lt_compat, D0|exact A3]. }
  set (a' := cpev (zl DD (qlz l)) x) in *. set (b' := cpev (zl DD rz) x) in *.
  replace (Cminus a b) with (Cplus (Cplus (Cminus a a') (Cminus a' b')) (Copp (Cminus b b'))) by ring.
  eapply Rle_trans; [apply Cmod_triangle|]. rewrite Cmod_opp. pose proof (Cmod_triangle (Cminus a a') (Cminus a' b')) as T.
  apply IZR_le in C2. rewrite !mult_IZR, !plus_IZR, !mult_IZR, IZRpow in C2 by exact Hk.
  assert (P : 0 < 10 ^ Z.to_nat k) by (apply pow_lt; lra).
  apply Rle_trans with ((IZR (ub p q (subz (qlz l) rz)) + IZR (ub p q (ones (qlz l))) + IZR E * IZR (ub p q (ones rz))) / IZR DD); [unfold Rdiv in *; rewrite Rmult_1_l in A1; lra|].
  apply Rmult_le_reg_r with (IZR DD * 10 ^ Z.to_nat k); [apply Rmult_lt_0_compat; assumption|].
  replace (IZR c / 10 ^ Z.to_nat k * (IZR DD * 10 ^ Z.to_nat k)) with (IZR c * IZR DD) by (field; lra).
  match goal with |- ?X / IZR DD * (IZR DD * ?Y) <= _ => replace (X / IZR DD * (IZR DD * Y)) with (X * Y) by (field; lra) end. exact C2.
Qed.
(** ** the coefficients at unity *)
Fixpoint ikz (k : Z) (l : list Z) : list Z := match l with [] => [] | c :: l' => (c / k)%Z :: ikz (k + 1) l' end.
Lemma ikz_rel E l z : (0 <= E)%Z -> rel E l z -> forall k, (1 <= k)%nat -> rel (E + 1) (ik k l) (ikz (Z.of_nat k) z).
Proof.
  intros HE H. induction H as [|a c l z Hac HR IH]; intros k Hk; [constructor|]. cbn [ik ikz]. constructor.
  - pose proof DDpos as D0. assert (K1 : 1 <= INR k) by (apply (le_INR 1); exact Hk). pose proof (div_err c (Z.of_nat k) ltac:(lia)) as D. rewrite <- INR_IZR_INZ in D.
    set (t := IZR (c / Z.of_nat k)) in *. rewrite plus_IZR.
    replace (a / INR k - t / IZR DD) with ((a - IZR c / IZR DD) / INR k + (IZR c / INR k - t) / IZR DD) by (field; split; lra).
    eapply Rle_trans; [apply Rabs_triang|]. unfold Rdiv. rewrite !Rabs_mult. rewrite (Rabs_pos_eq (/ INR k)) by (apply Rlt_le, Rinv_0_lt_compat; lra). rewrite (Rabs_pos_eq (/ IZR DD)) by (apply Rlt_le, Rinv_0_lt_compat; lra).
    rewrite Rmult_plus_distr_r. apply Rplus_le_compat.
    + apply Rle_trans with (Rabs (a - IZR c / IZR DD) * 1); [apply Rmult_le_compat_l; [apply Rabs_pos|]; rewrite <- Rinv_1; apply Rinv_le_contravar; lra|rewrite Rmult_1_r; exact Hac].
    + apply Rmult_le_compat_r; [apply Rlt_le, Rinv_0_lt_compat; lra|exact D].
  - replace (Z.of_nat k + 1)%Z with (Z.of_nat (S k)) by lia. apply IH. lia.
Qed.
Definition zz (j : nat) : Z := match j with
  | 2%nat => 16449340668482264364724151666460251892189499012067984377355582293700074%Z
  | 3%nat => 12020569031595942853997381615114499907649860000000000000000000000000000%Z
  | 4%nat => 10823232337111381915160036965411679027747509519187269076829762154441206%Z
  | 5%nat => 10369277551433699263313654864570341680570810000000000000000000000000000%Z
  | 6%nat => 10173430619844491397145179297909205279018174900328535618424086640043321%Z
  | _ => 0%Z end.
Lemma zeta4 : ReLi 4 1 = PI ^ 4 / 90.
Proof. pose proof (asl_even 2 ltac:(lia)) as H. rewrite (asl_val (2 * 2)) in H by lia. change (2 * 2)%nat with 4%nat in H. let b := eval vm_compute in (nth 4 bl24 0%Z) in change (nth 4 bl24 0%Z) with b in H. change (Zfact 4) with 24%Z in H. unfold D24 in H. replace ((-1) ^ 2) with 1 in H by ring. rewrite Rmult_1_l in H. rewrite <- H. field. Qed.
Lemma zeta6 : ReLi 6 1 = PI ^ 6 / 945.
Proof. pose proof (asl_even 3 ltac:(lia)) as H. rewrite (asl_val (2 * 3)) in H by lia. change (2 * 3)%nat with 6%nat in H. let b := eval vm_compute in (nth 6 bl24 0%Z) in change (nth 6 bl24 0%Z) with b in H. change (Zfact 6) with 720%Z in H. unfold D24 in H. replace ((-1) ^ 3) with (-1) in H by ring. replace (ReLi 6 1) with (- (-1 * ReLi 6 1)) by ring. rewrite <- H. field. Qed.
Definition EZ : Z := (10 ^ 32)%Z.
Lemma zz_ok j : (1 <= j <= 6)%nat -> Rabs (IGc j - IZR (zz j) / IZR DD) <= IZR EZ / IZR DD.
Proof.
  intros H. assert (C6 : j = 1%nat \/ j = 2%nat \/ j = 3%nat \/ j = 4%nat \/ j = 5%nat \/ j = 6%nat) by lia. 
  assert (ED : IZR DD = 10 ^ 70) by (rewrite pow_IZR; reflexivity). assert (EE' : IZR EZ = 10 ^ 32) by (rewrite pow_IZR; reflexivity). rewrite ED, EE'.
  destruct C6 as [->|[->|[->|[->|[->| ->]]]]]; unfold IGc, zz; cbn [Nat.eqb].
  - unfold Rdiv. rewrite Rmult_0_l, Rminus_0_r, Rabs_R0. apply Rlt_le, Rmult_lt_0_compat; [apply pow_lt; lra|apply Rinv_0_lt_compat, pow_lt; lra].
  - rewrite basel. interval with (i_prec 250).
  - rewrite Rabs_minus_sym. eapply Rle_trans; [|apply Rle_trans with (3 / 10 ^ 39); [exact zeta3_dec|lra]]. right. f_equal. f_equal. lra.
  - rewrite zeta4. interval with (i_prec 250).
  - rewrite Rabs_minus_sym. eapply Rle_trans; [|apply Rle_trans with (3 / 10 ^ 39); [exact zeta5_dec|lra]]. right. f_equal. f_equal. lra.
  - rewrite zeta6. interval with (i_prec 250).
Qed.
Fixpoint igz (n : nat) : list Z := match n with O => bz | S m => zz (S m) :: ikz 1 (igz m) end.
Lemma igz_rel n : (n <= 6)%nat -> rel (EZ + Z.of_nat n) (IG (zl DD bz) n) (igz n).
Proof.
  pose proof DDpos as D0. induction n as [|n IH]; intros Hn.
  - cbn [IG igz]. unfold rel, zl. induction bz as [|c l IHl]; [constructor|]. cbn [map]. constructor; [|exact IHl]. rewrite Rminus_eq_0, Rabs_R0. apply Rlt_le, Rdiv_lt_0_compat; [apply (IZR_lt 0); reflexivity|exact D0].
  - cbn [IG igz]. unfold il. constructor.
    + eapply Rle_trans; [apply zz_ok; lia|]. apply Rmult_le_compat_r; [apply Rlt_le, Rinv_0_lt_compat, D0|]. apply IZR_le. lia.
    + replace (EZ + Z.of_nat (S n))%Z with (EZ + Z.of_nat n + 1)%Z by lia. assert (E0 : (0 <= EZ + Z.of_nat n)%Z) by (apply Z.add_nonneg_nonneg; [discriminate|lia]). assert (N6 : (n <= 6)%nat) by lia. apply (ikz_rel _ _ _ E0 (IH N6) 1%nat). lia.
Qed.
Definition igl3 : list Z := Eval vm_compute in igz 3.
Definition igl4 : list Z := Eval vm_compute in igz 4.
Definition igl5 : list Z := Eval vm_compute in igz 5.
Definition igl6 : list Z := Eval vm_compute in igz 6.
Definition igl (n : nat) : list Z := match n with 3%nat => igl3 | 4%nat => igl4 | 5%nat => igl5 | _ => igl6 end.
Lemma igl_ok n : (3 <= n <= 6)%nat -> igl n = igz n.
Proof. intros H. assert (C : n = 3%nat \/ n = 4%nat \/ n = 5%nat \/ n = 6%nat) by lia. destruct C as [->|[->|[->| ->]]]; vm_compute; reflexivity. Qed.
