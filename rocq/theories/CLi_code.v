(** * Evaluating the complex polylogarithm code in exact arithmetic *)
From Coq Require Import ZArith Reals List Bool Lra Lia Psatz.
From Coquelicot Require Import Coquelicot.
From Verif Require Import Num NumR Spec Eval_R Proof_Horner Cplx Ccalc CLi CLi_disc Cpoly CLi_T CLi_region Model_LiR Model_LiC.
From Verif Require Properties_H.
Import ListNotations.
Local Open Scope R_scope.

Definition rq (p : Z * Z) : R := IZR (fst p) / IZR (snd p).
Definition Sq (l : list (Z * Z)) : list (option R) := map (fun p => Some (rq p)) l.
Section E.
Variable e : R.
Notation N := (NumR e).
Lemma lit0 m : lit N m 0 = Some (rq (m, 1%Z)).
Proof. rewrite lit_int. unfold rq. cbn [fst snd]. f_equal. field. Qed.
Lemma litneg m k : lit N m (Z.neg k) = Some (rq (m, (10 ^ Z.pos k)%Z)). Proof. reflexivity. Qed.
Lemma frac a b : (b <> 0)%Z -> div N (lit N a 0) (lit N b 0) = Some (rq (a, b)).
Proof. intros H. rewrite !lit_int. cbn [div NumR]. rewrite odiv_some by (apply not_0_IZR, H). reflexivity. Qed.
Lemma chornerk_ok k (z : C) (l : list (Z * Z)) : (k + 2 <= length l)%nat -> chorner N k (ofC e z) (Sq l) = ofC e (cpev (map rq (skipn k l)) z).
Proof.
  intros H. unfold Sq. rewrite <- (map_map rq Some). destruct z as [x y]. unfold ofC. cbn [fst snd]. rewrite chorner_correct by (rewrite map_length; lia).
  rewrite skipn_map, cpoly_cpval. reflexivity.
Qed.
Lemma chorner_ok (z : C) (l : list (Z * Z)) : (2 <= length l)%nat -> chorner N 0 (ofC e z) (Sq l) = ofC e (cpev (map rq l) z).
Proof. intros H. rewrite chornerk_ok by lia. reflexivity. Qed.
Lemma clog1p_ok (z : C) : Cplus (RtoC 1) z <> RtoC 0 -> clog1p N (ofC e z) = ofC e (Clog (Cplus (RtoC 1) z)).
Proof. intros H. destruct (Properties_H.C24_log1p e z H) as (w & E1 & E2). rewrite E1. f_equal. apply Clog_unique, E2. Qed.
Lemma pos_log_ok (z : C) : z <> RtoC 0 -> pos_log N (ofC e z) = ofC e (Clog z).
Proof. intros H. destruct (Properties_H.C24_pos_log e z H) as (w & E1 & E2). rewrite E1. f_equal. apply Clog_unique, E2. Qed.
Lemma branch_log (z : C) : z <> RtoC 0 -> nlog N (cabs N (ofC e z)) = Some (ln (Cmod z)).
Proof. intros H. rewrite ofC_abs. cbn [nlog NumR]. apply olog_some, Cmod_gt_0, H. Qed.
Lemma branch_unity (z : C) : ltb N (add N (mul N (Some (ln (Cmod z))) (Some (ln (Cmod z)))) (mul N (Some (Carg z)) (Some (Carg z)))) (lit N 1 0) = Rltb (Cmod (Clog z) * Cmod (Clog z)) 1.
Proof. rewrite lit_int, Cmod_Clog. reflexivity. Qed.
Lemma branch_le1 (z : C) : leb N (Some (Cmod z)) (lit N 1 0) = Rleb (Cmod z) 1.
Proof. rewrite lit_int. reflexivity. Qed.
Lemma branch_pos (x : R) : ltb N (lit N 0 0) (Some x) = Rltb 0 x.
Proof. rewrite lit_int. reflexivity. Qed.
Lemma nonreal (z : C) : snd z <> 0 -> z <> RtoC 0 /\ eqb N (snd (ofC e z)) (lit N 0 0) = false.
Proof. intros H. split; [intros E; apply H; rewrite E; reflexivity|]. rewrite lit_int. cbn [ofC snd eqb NumR ocmp]. apply Reqb_false, H. Qed.
Lemma opp1p (z : C) : z <> RtoC 1 -> copp N (clog1p N (copp N (ofC e z))) = ofC e (U z).
Proof.
  intros H. rewrite ofC_opp, clog1p_ok, ofC_opp; [reflexivity|]. intros E. apply H. replace z with (Cminus (RtoC 1) (Cplus (RtoC 1) (Copp z))) by ring. rewrite E. ring.
Qed.
Lemma Cinv_im_ne (z : C) : snd z <> 0 -> snd (Cinv z) <> 0.
Proof.
  intros H. destruct z as [a b]. cbn [snd] in H. unfold Cinv. cbn [fst snd]. intros E. apply Rmult_integral in E. destruct E as [E|E]; [lra|].
  assert (P : 0 < a ^ 2 + b ^ 2) by nra. apply (Rinv_neq_0_compat (a ^ 2 + b ^ 2)); [lra|exact E].
Qed.
Lemma inv1p (z : C) : z <> RtoC 0 -> z <> RtoC 1 -> copp N (clog1p N (cdiv_rc N (lit N (-1) 0) (ofC e z))) = ofC e (U (Cinv z)).
Proof.
  intros Z0 Z1. rewrite lit_int, ofC_div_rc by exact Z0.
  assert (EQ : Cplus (RtoC 1) (Cdiv (RtoC (IZR (-1))) z) = Cminus (RtoC 1) (Cinv z)).
  { replace (RtoC (IZR (-1))) with (Copp (RtoC 1)) by (rewrite <- RtoC_opp; reflexivity). field. exact Z0. }
  rewrite clog1p_ok, ofC_opp, EQ; [reflexivity|]. rewrite EQ. intros E. apply Z1. replace z with (Cmult z (Cplus (Cminus (RtoC 1) (Cinv z)) (Cinv z))) by (field; exact Z0). rewrite E. field. exact Z0.
Qed.
Lemma nonreal1 (z : C) : snd z <> 0 -> z <> RtoC 1.
Proof. intros H E. apply H. rewrite E. reflexivity. Qed.
Lemma Clog_n0 (z : C) : z <> RtoC 0 -> z <> RtoC 1 -> Clog z <> RtoC 0.
Proof. intros Z0 Z1 E. apply Z1. destruct (Clog_spec z Z0) as [X _]. rewrite <- X, E. unfold Cexp, RtoC. cbn [fst snd]. rewrite exp_0, cos_0, sin_0. f_equal; ring. Qed.
(** the special-value tests of the real axis *)
Lemma skip2 (A : Type) (c b1 : bool) (B1 B2 K : A) : c = false -> (if c then if b1 then B1 else B2 else K) = K.
Proof. intros ->. reflexivity. Qed.
Lemma skip3 (A : Type) (c b1 b2 b3 : bool) (B1 B2 B3 K : A) : c = false \/ (b1 = false /\ b2 = false /\ b3 = false) -> (if c then if b1 then B1 else if b2 then B2 else if b3 then B3 else K else K) = K.
Proof. intros [->|(-> & -> & ->)]; [reflexivity|]. destruct c; reflexivity. Qed.
Lemma skip4 (A : Type) (c b1 b2 b3 b4 : bool) (B1 B2 B3 B4 K : A) : c = false \/ (b1 = false /\ b2 = false /\ b3 = false /\ b4 = false) -> (if c then if b1 then B1 else if b2 then B2 else if b3 then B3 else if b4 then B4 else K else K) = K.
Proof. intros [->|(-> & -> & -> & ->)]; [reflexivity|]. destruct c; reflexivity. Qed.
(** not one of the special points 0, 1, -1 (and 1/2 for Li3) *)
Definition ordinary (z : C) : Prop := snd z <> 0 \/ (fst z <> 0 /\ fst z <> 1 /\ fst z <> -1).
Definition ordinary3 (z : C) : Prop := snd z <> 0 \/ (fst z <> 0 /\ fst z <> 1 /\ fst z <> -1 /\ fst z <> / 2).
Lemma ord3 z : ordinary3 z -> ordinary z. Proof. intros [H|(H1 & H2 & H3 & _)]; [left; exact H|right; repeat split; assumption]. Qed.
Lemma ord_ne z : ordinary z -> z <> RtoC 0 /\ z <> RtoC 1.
Proof. intros H. split; intros ->; destruct H as [H|(H1 & H2 & _)]; cbn in *; lra. Qed.
Lemma ord_tests z : ordinary z -> eqb N (snd (ofC e z)) (lit N 0 0) = false \/
  (eqb N (fst (ofC e z)) (lit N 0 0) = false /\ eqb N (fst (ofC e z)) (lit N 1 0) = false /\ eqb N (fst (ofC e z)) (lit N (-1) 0) = false).
Proof.
  intros [H|(H1 & H2 & H3)]; [left; apply nonreal, H|right]. rewrite !lit_int. cbn [ofC fst eqb NumR ocmp]. repeat split; apply Reqb_false; assumption.
Qed.
Lemma ord3_tests z : ordinary3 z -> eqb N (snd (ofC e z)) (lit N 0 0) = false \/
  (eqb N (fst (ofC e z)) (lit N 0 0) = false /\ eqb N (fst (ofC e z)) (lit N 1 0) = false /\ eqb N (fst (ofC e z)) (lit N (-1) 0) = false /\ eqb N (fst (ofC e z)) (lit N 5 (-1)) = false).
Proof.
  intros H. destruct (ord_tests z (ord3 z H)) as [T|(T1 & T2 & T3)]; [left; exact T|]. destruct H as [H|(H1 & H2 & H3 & H4)]; [left; apply nonreal, H|right]. repeat split; try assumption.
  rewrite litneg. cbn [ofC fst eqb NumR ocmp]. unfold rq. cbn [fst snd]. change (10 ^ 1)%Z with 10%Z. apply Reqb_false. intros E. apply H4. rewrite E. field.
Qed.
(** lmz: the code's Log(-z), with the literal p for pi *)
Definition lmz (p : R) (z : C) : C := (ln (Cmod z), if Rlt_dec 0 (Carg z) then Carg z - p else Carg z + p).
Lemma lmz_ok (p : R) (z : C) : (Some (ln (Cmod z)), if Rltb 0 (Carg z) then sub N (Some (Carg z)) (Some p) else add N (Some (Carg z)) (Some p)) = ofC e (lmz p z).
Proof. unfold lmz, ofC, Rltb. cbn [fst snd]. destruct (Rlt_dec 0 (Carg z)); reflexivity. Qed.
End E.
Fixpoint spread (l : list (Z * Z)) : list (Z * Z) := match l with [] => [] | c :: l' => c :: (0, 1)%Z :: spread l' end.
Lemma rq0 : rq (0, 1)%Z = 0. Proof. unfold rq. cbn [fst snd]. unfold Rdiv. apply Rmult_0_l. Qed.
Lemma spread_ok l x : cpev (map rq (spread l)) x = cpev (map rq l) (Cmult x x).
Proof. induction l as [|c l IH]; [reflexivity|]. cbn [spread map cpev]. rewrite rq0, IH. ring. Qed.
Ltac tab := repeat (apply f_equal2; [first [reflexivity | apply lit0 | apply frac; discriminate]|]); reflexivity.
Ltac absq := repeat match goal with |- context [rq ?p] => generalize (rq p); intro end.
