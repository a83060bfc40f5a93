(** * Accuracy of the complex dilogarithm code in exact arithmetic *)
From Coq Require Import ZArith Reals List Bool Lra Lia Psatz.
From Coquelicot Require Import Coquelicot.
From Interval Require Import Tactic.
From Verif Require Import Num NumR Spec Eval_R Consts Cplx Ccalc CLi CLi_disc CLi_inv Cpoly CLi_unity CLi_T Polylog Fourier Clausen CLi_ref CLi_region Rest Model_LiR Model_LiC Proof_Horner CLi_code CLi_eval CLi_dev CLi_rest CLi_acc CLi_inst.
Import ListNotations.
Local Open Scope R_scope.

(** the code's polynomial: u + u^2 (bf0 + u (bf1 + bf2 u^2 + ...)) *)
Definition T2 (bf : list (Z * Z)) : list (Z * Z) := hd (0, 1)%Z bf :: spread (tl bf).
Definition c2val (e p : R) (bf : list (Z * Z)) (z : C) : C :=
  let Q u := cpev (map rq ((0, 1)%Z :: (1, 1)%Z :: T2 bf)) u in
  let inv := Cplus (Copp (Q (U (Cinv z)))) (cpev (rlist 2 p 0) (Clog (Copp z))) in
  if Rlt_dec (Cmod z * Cmod z) e then Cmult z (Cplus (RtoC 1) (Cmult (RtoC (/ 4)) z))
  else if Rle_dec (fst z) (/ 2) then (if Rlt_dec 1 (Cmod z * Cmod z) then inv else Q (U z))
  else if Rle_dec (Cmod z * Cmod z) (2 * fst z) then Cplus (Copp (Q (Copp (Clog z)))) (Cplus (Cmult (Copp (Clog z)) (Clog (Cminus (RtoC 1) z))) (RtoC (p * p / 6)))
  else inv.
Section Near.
Variables (bf : list (Z * Z)) (e p cT cN cP eps : R).
Definition negq (q : Z * Z) : Z * Z := ((- fst q)%Z, snd q).
Definition T2n : list (Z * Z) := hd (0, 1)%Z bf :: spread (map negq (tl bf)).
Lemma rq_neg q : rq (negq q) = - rq q. Proof. unfold rq, negq. cbn [fst snd]. rewrite opp_IZR. unfold Rdiv. ring. Qed.
Lemma T2n_ok w : cpev (map rq (T2 bf)) (Copp w) = cpev (map rq T2n) w.
Proof.
  unfold T2, T2n. cbn [map cpev]. f_equal. rewrite !spread_ok. replace (Cmult (Copp w) (Copp w)) with (Cmult w w) by ring.
  generalize (tl bf). intros l. induction l as [|c l IH]; cbn [map cpev]; [ring|].
  replace (Cmult (Copp w) (Cplus (RtoC (rq c)) (Cmult (Cmult w w) (cpev (map rq l) (Cmult w w))))) with (Cplus (Cmult (Copp w) (RtoC (rq c))) (Cmult (Cmult w w) (Cmult (Copp w) (cpev (map rq l) (Cmult w w))))) by ring.
  rewrite IH, rq_neg, RtoC_opp. ring.
Qed.
Lemma ik_ik b x : forall k, (1 <= k)%nat -> Cminus (cpev (ik (S k) (ik k b)) x) (cpev (ik k b) x) = Copp (cpev (ik (S k) b) x).
Proof.
  induction b as [|c b IH]; intros k Hk; [cbn [ik cpev]; ring|]. cbn [ik cpev]. specialize (IH (S k) ltac:(lia)).
  set (A := cpev (ik (S (S k)) (ik (S k) b)) x) in *. set (B := cpev (ik (S k) b) x) in *. set (D := cpev (ik (S (S k)) b) x) in *.
  assert (K0 : INR k <> 0) by (apply not_0_INR; lia). assert (K1 : INR (S k) <> 0) by (apply not_0_INR; lia). assert (K2 : INR (S k) = INR k + 1) by (apply S_INR).
  replace (c / INR k / INR (S k)) with (c / INR k - c / INR (S k)) by (rewrite K2 in *; field; split; assumption). rewrite RtoC_minus.
  replace (Cminus (Cplus (Cminus (RtoC (c / INR k)) (RtoC (c / INR (S k)))) (Cmult x A)) (Cplus (RtoC (c / INR k)) (Cmult x B))) with (Cplus (Copp (RtoC (c / INR (S k)))) (Cmult x (Cminus A B))) by ring.
  rewrite IH. ring.
Qed.
Lemma IG12 b w : Cminus (cpev (IG b 2) w) (Cmult w (cpev (IG b 1) w)) = Cminus (RtoC (ReLi 2 1)) (Cmult (Cmult w w) (cpev (ik 2 b) w)).
Proof.
  pose proof (ik_ik b w 1 ltac:(lia)) as K. cbn [IG]. unfold il. change (IGc 2) with (ReLi 2 1). change (IGc 1) with 0. cbn [ik cpev].
  replace (0 / INR 1) with 0 by (unfold Rdiv; ring).
  set (A := cpev (ik 2 (ik 1 b)) w) in *. set (B := cpev (ik 1 b) w) in *. set (D := cpev (ik 2 b) w) in *.
  replace (Cminus (Cplus (RtoC (ReLi 2 1)) (Cmult w (Cplus (RtoC 0) (Cmult w A)))) (Cmult w (Cplus (RtoC 0) (Cmult w B)))) with (Cplus (RtoC (ReLi 2 1)) (Cmult (Cmult w w) (Cminus A B))) by ring.
  rewrite K. ring.
Qed.
Hypothesis HT : forall u, Cmod u <= 11 / 10 -> Cmod (Cminus (cpev (map rq ((1, 1)%Z :: T2 bf)) u) (cpev (zl DD (tl (qz 2))) u)) <= cT.
Hypothesis HN : forall w, Cmod w <= 11 / 10 -> Cmod (Cminus (cpev (map rq T2n) w) (cpev (ik 2 (zl DD bz)) w)) <= cN.
Hypothesis HP : Rabs (p * p / 6 - PI * PI / 6) <= cP.
Hypothesis He : e <= / 10 ^ 6.
Hypothesis E1 : 2 * cT + / 10 ^ 37 + cP <= eps.
Hypothesis E2 : 2 * (121 / 100 * cN + / 10 ^ 36 + cP) <= eps.
Hypothesis E3 : e / 8 <= eps.
Lemma near_ok z : snd z <> 0 -> / 2 < fst z -> Cmod z * Cmod z <= 2 * fst z ->
  Cmod (Cminus (Cplus (Copp (cpev (map rq ((0, 1)%Z :: (1, 1)%Z :: T2 bf)) (Copp (Clog z)))) (Cplus (Cmult (Copp (Clog z)) (Clog (Cminus (RtoC 1) z))) (RtoC (p * p / 6)))) (CLi 2 z)) <= 121 / 100 * cN + / 10 ^ 36 + cP.
Proof.
  intros H H1 H2. assert (Z0 : z <> RtoC 0) by (intros E; apply H; rewrite E; reflexivity). destruct (Clog_spec z Z0) as [EX RA].
  assert (W : Cmod (Clog z) <= 11 / 10) by (apply log_region; [lra|exact H2]). pose proof (Clog_im_neq z H) as WN. assert (RB : Rabs (snd (Clog z)) <= PI) by (apply Rabs_le; lra).
  pose proof (unity_any 0 _ ltac:(lia) WN RB W) as U1. pose proof (unity_any 1 _ ltac:(lia) WN RB W) as U2. pose proof (HN _ W) as N1.
  assert (LR : CLi 1 z = Copp (Clog (Cminus (RtoC 1) z))) by reflexivity.
  unfold EU in U1, U2. rewrite EX in U1, U2. rewrite LR in U1. pose proof (IG12 (zl DD bz) (Clog z)) as IGE. cbn [map cpev]. rewrite rq0. rewrite T2n_ok.
  change (@map (Z * Z) R rq T2n) with (map rq T2n) in *. rewrite rq1. set (w := Clog z) in *. set (lm := Clog (Cminus (RtoC 1) z)) in *.
  assert (LM : Lm 2 w = Cplus w (Cmult w (Lm 1 w))).
  { unfold Lm. replace (inv_fact 1) with 1 by (unfold inv_fact; cbn; field). replace (inv_fact 0) with 1 by (unfold inv_fact; cbn; field). replace (Hm 1) with 1 by (cbn; field). replace (Hm 0) with 0 by reflexivity. change (Cpow w 0) with (RtoC 1). change (Cpow w 1) with (Cmult w (RtoC 1)). ring. }
  rewrite LM in U2. set (g1 := cpev (IG (zl DD bz) 1) w) in *. set (g2 := cpev (IG (zl DD bz) 2) w) in *. set (l1 := Lm 1 w) in *. set (X := cpev (map rq T2n) w) in *. set (Y := cpev (ik 2 (zl DD bz)) w) in *. set (Li := CLi 2 z) in *.
  replace (Cminus (Cplus (Copp (Cplus (RtoC 0) (Cmult (Copp w) (Cplus (RtoC 1) (Cmult (Copp w) X))))) (Cplus (Cmult (Copp w) lm) (RtoC (p * p / 6)))) Li)
    with (Cplus (Cplus (Copp (Cmult (Cmult w w) (Cminus X Y))) (Cmult w (Cminus (Cminus (Copp lm) g1) l1))) (Cplus (Copp (Cminus (Cminus Li g2) (Cplus w (Cmult w l1)))) (RtoC (p * p / 6 - PI * PI / 6)))).
  - eapply Rle_trans; [apply Cmod_triangle|]. pose proof (Cmod_triangle (Copp (Cmult (Cmult w w) (Cminus X Y))) (Cmult w (Cminus (Cminus (Copp lm) g1) l1))) as T1. pose proof (Cmod_triangle (Copp (Cminus (Cminus Li g2) (Cplus w (Cmult w l1)))) (RtoC (p * p / 6 - PI * PI / 6))) as T2'.
    rewrite !Cmod_opp, !Cmod_mult in T1. rewrite Cmod_opp, Cmod_R in T2'. pose proof (Cmod_ge_0 w). pose proof (Cmod_ge_0 (Cminus X Y)).
    assert (M1 : Cmod w * Cmod w * Cmod (Cminus X Y) <= 121 / 100 * cN) by (apply Rmult_le_compat; [nra|assumption|nra|exact N1]).
    assert (M2 : Cmod w * Cmod (Cminus (Cminus (Copp lm) g1) l1) <= 11 / 10 * / 10 ^ 37) by (apply Rmult_le_compat; [assumption|apply Cmod_ge_0|exact W|exact U1]).
    assert (J : 11 / 10 * / 10 ^ 37 + / 10 ^ 37 <= / 10 ^ 36) by lra. lra.
  - replace (p * p / 6 - PI * PI / 6) with (p * p / 6 - ReLi 2 1) by (rewrite basel; field). rewrite RtoC_minus.
    replace (RtoC (ReLi 2 1)) with (Cplus (Cminus (RtoC (ReLi 2 1)) (Cmult (Cmult w w) Y)) (Cmult (Cmult w w) Y)) by ring. rewrite <- IGE. ring.
Qed.
Lemma tiny_ok z : Cmod z * Cmod z < e -> Cmod (Cminus (Cmult z (Cplus (RtoC 1) (Cmult (RtoC (/ 4)) z))) (CLi 2 z)) <= e / 8 * Cmod z.
Proof.
  intros H. pose proof (Cmod_ge_0 z) as Z0. assert (S1 : Cmod z <= / 1000) by (apply sq_le; lra).
  pose proof (disc_remainder 2 ltac:(lia) z 3 ltac:(lra)) as D. cbn [Csum] in D. unfold pterm in D.
  assert (P : Cplus (Cplus (Cplus (RtoC 0) (Cdiv (Cpow z 1) (RtoC (INR 1 ^ 2)))) (Cdiv (Cpow z 2) (RtoC (INR 2 ^ 2)))) (Cdiv (Cpow z 3) (RtoC (INR 3 ^ 2))) = Cplus (Cmult z (Cplus (RtoC 1) (Cmult (RtoC (/ 4)) z))) (Cmult (RtoC (/ 9)) (Cmult z (Cmult z z)))).
  { replace (INR 1 ^ 2) with 1 by (cbn; ring). replace (INR 2 ^ 2) with 4 by (cbn; ring). replace (INR 3 ^ 2) with 9 by (cbn; ring). rewrite !RtoC_inv by lra.
    change (Cpow z 1) with (Cmult z (RtoC 1)). change (Cpow z 2) with (Cmult z (Cmult z (RtoC 1))). change (Cpow z 3) with (Cmult z (Cmult z (Cmult z (RtoC 1)))). field. repeat split; apply RtoC_neq; lra. }
  rewrite P in D. set (v := Cmult z (Cplus (RtoC 1) (Cmult (RtoC (/ 4)) z))) in *. set (c3 := Cmult (RtoC (/ 9)) (Cmult z (Cmult z z))) in *. set (Li := CLi 2 z) in *.
  replace (Cminus v Li) with (Cminus (Copp (Cminus Li (Cplus v c3))) c3) by ring. eapply Rle_trans; [apply Cmod_triangle|]. rewrite !Cmod_opp.
  assert (C3 : Cmod c3 = / 9 * (Cmod z * (Cmod z * Cmod z))) by (unfold c3; rewrite !Cmod_mult, Cmod_R, Rabs_pos_eq by lra; reflexivity). rewrite C3.
  set (r := Cmod z) in *. assert (D2 : 2 * (r ^ 4 / (1 - r)) <= 25 / 10000 * (r * (r * r))).
  { replace (r ^ 4) with (r * (r * (r * r))) by ring. assert (I : / (1 - r) <= 1002 / 1000). { apply Rmult_le_reg_l with (1 - r); [lra|]. rewrite Rinv_r by lra. lra. }
    assert (A0 : 0 <= r * (r * r)) by (apply Rmult_le_pos; [lra|nra]). assert (A : r * (r * (r * r)) * / (1 - r) <= / 1000 * (r * (r * r)) * (1002 / 1000)).
    { apply Rmult_le_compat; [apply Rmult_le_pos; lra|apply Rlt_le, Rinv_0_lt_compat; lra| |exact I]. apply Rmult_le_compat_r; lra. } unfold Rdiv at 1. lra. }
  assert (A1 : r * (r * r) <= r * e) by (apply Rmult_le_compat_l; lra). assert (A0 : 0 <= r * (r * r)) by (apply Rmult_le_pos; [lra|nra]). lra.
Qed.
Lemma inv_regionA z : z <> RtoC 0 -> 1 < Cmod z * Cmod z -> 2 * fst z <= Cmod z * Cmod z -> regionA (Cinv z).
Proof.
  intros Z0 H1 H2. pose proof (Cmod_ge_0 z). assert (L1 : 1 < Cmod z) by nra. split.
  - rewrite Cmod_inv, <- Rinv_1 by exact Z0. apply Rinv_le_contravar; lra.
  - rewrite Cmod_sq in H1, H2. destruct z as [a b]. cbn [fst snd] in *. unfold Cinv. cbn [fst snd]. apply Rmult_le_reg_r with (a ^ 2 + b ^ 2); [nra|].
    unfold Rdiv. rewrite Rmult_assoc, Rinv_l by nra. nra.
Qed.
Lemma inv_ok z : snd z <> 0 -> 1 < Cmod z * Cmod z -> 2 * fst z <= Cmod z * Cmod z ->
  Cmod (Cminus (Cplus (Copp (cpev (map rq ((0, 1)%Z :: (1, 1)%Z :: T2 bf)) (U (Cinv z)))) (cpev (rlist 2 p 0) (Clog (Copp z)))) (CLi 2 z)) <= 2 * cT + / 10 ^ 37 + cP.
Proof.
  intros H H1 H2. assert (Z0 : z <> RtoC 0) by (intros E; apply H; rewrite E; reflexivity). pose proof (inv_regionA z Z0 H1 H2) as RG. set (y := Cinv z) in *.
  pose proof (T_any 2 _ cT y ltac:(lia) (regionA_good y RG) HT) as TA. destruct RG as [Y1 _]. pose proof (CLi_inversion 2 z (or_intror H)) as IV. fold y in IV. rewrite restC_list in IV by lia. 
  set (Q := cpev (map rq ((0, 1)%Z :: (1, 1)%Z :: T2 bf)) (U y)) in *. set (L := Clog (Copp z)) in *. cbn [rlist cpev] in *. replace ((-1) ^ 2) with 1 in IV by ring.
  set (X := Cmult L (Cplus (RtoC 0) (Cmult L (Cplus (RtoC (- / 2)) (Cmult L (RtoC 0)))))) in *. set (Li := CLi 2 z) in *. set (Lj := CLi 2 y) in *.
  replace (Cminus (Cplus (Copp Q) (Cplus (RtoC (- (p * p / 6))) X)) Li) with (Cminus (Copp (Cminus Q Lj)) (RtoC (p * p / 6 - PI * PI / 6))).
  - eapply Rle_trans; [apply Cmod_triangle|]. rewrite !Cmod_opp, Cmod_R. assert (cT0 : 0 <= cT) by (eapply Rle_trans; [apply Cmod_ge_0|apply (HT (RtoC 0)); rewrite Cmod_0; lra]).
    assert (I0 : 0 < / 10 ^ 37) by (apply Rinv_0_lt_compat, pow_lt; lra). assert (M : (2 * cT + / 10 ^ 37) * Cmod y <= (2 * cT + / 10 ^ 37) * 1) by (apply Rmult_le_compat_l; lra). lra.
  - replace Li with (Cminus (Cplus Li (Cmult (RtoC 1) Lj)) Lj) by ring. rewrite IV. rewrite RtoC_minus, !RtoC_opp. ring.
Qed.
Theorem c2val_close z : snd z <> 0 -> close 2 eps (c2val e p bf z) z.
Proof.
  intros H. assert (Z0 : z <> RtoC 0) by (intros E; apply H; rewrite E; reflexivity). pose proof (Cmod_gt_0 z) as ZP. apply proj1 in ZP. specialize (ZP Z0).
  assert (cT0 : 0 <= cT) by (eapply Rle_trans; [apply Cmod_ge_0|apply (HT (RtoC 0)); rewrite Cmod_0; lra]). assert (cP0 : 0 <= cP) by (eapply Rle_trans; [apply Rabs_pos|exact HP]).
  assert (I0 : 0 < / 10 ^ 37) by (apply Rinv_0_lt_compat, pow_lt; lra). assert (M1 : 1 <= (1 + Cmod (Clog (Copp z))) ^ 2) by (apply pow_R1_Rle; pose proof (Cmod_ge_0 (Clog (Copp z))); lra).
  assert (EP : 0 <= eps) by lra.
  assert (EM : eps <= eps * (1 + Cmod (Clog (Copp z))) ^ 2) by (rewrite <- (Rmult_1_r eps) at 1; apply Rmult_le_compat_l; assumption).
  unfold c2val. destruct (Rlt_dec (Cmod z * Cmod z) e) as [B|B].
  - pose proof (tiny_ok z B) as T. split; intros HZ; [eapply Rle_trans; [exact T|]; apply Rmult_le_compat_r; lra|]. exfalso. nra.
  - destruct (Rle_dec (fst z) (/ 2)) as [R1|R1].
    + destruct (Rlt_dec 1 (Cmod z * Cmod z)) as [N1|N1].
      * split; intros HZ; [exfalso; nra|]. eapply Rle_trans; [apply inv_ok; [exact H|exact N1|lra]|lra].
      * assert (L1 : Cmod z <= 1) by nra. split; intros HZ; [|lra]. eapply Rle_trans; [apply (T_any 2 _ cT); [lia|apply regionA_good; split; assumption|exact HT]|]. apply Rmult_le_compat_r; lra.
    + apply Rnot_le_lt in R1. destruct (Rle_dec (Cmod z * Cmod z) (2 * fst z)) as [N1|N1].
      * pose proof (near_ok z H R1 N1) as K. split; intros HZ; (eapply Rle_trans; [exact K|]); [|lra].
        assert (ZH : / 2 <= Cmod z) by (pose proof (Cmod_fst z) as F; pose proof (Rle_abs (fst z)); lra). apply Rle_trans with (eps * / 2); [lra|]. apply Rmult_le_compat_l; assumption.
      * apply Rnot_le_lt in N1. split; intros HZ; [exfalso; nra|]. eapply Rle_trans; [apply inv_ok; [exact H|lra|lra]|lra].
Qed.
End Near.
Lemma useN bf c k w : (0 <= k)%Z -> chkD 11 10 (T2n bf) (ikz 2 bz) 1 c k = true -> Cmod w <= 11 / 10 -> Cmod (Cminus (cpev (map rq (T2n bf)) w) (cpev (ik 2 (zl DD bz)) w)) <= IZR c / 10 ^ Z.to_nat k.
Proof. intros Hk H Hw. apply (chkD_ok 11 10 _ _ (ikz 2 bz) 1 c k); [lia|lia|lia|exact Hk|apply (ikz_rel 0 _ _ ltac:(lia) (rel0 bz) 2); lia|exact H|exact Hw]. Qed.
