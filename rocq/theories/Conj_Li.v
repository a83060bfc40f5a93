(** * Conjugation for Li(n,z), every order *)
From Coq Require Import ZArith Reals List Bool Lra Lia Psatz.
From Coquelicot Require Import Coquelicot.
From Flocq Require Import Core.Raux.
From Interval Require Import Tactic.
From Verif Require Import Num NumR Outcome Spec Eval_R Model_Tables Model_Zeta Model_LiC Model_Li Proof_Int Proof_LiInt Cplx Conj.
Import ListNotations.
Local Open Scope R_scope.

Definition omap {A B} (f : A -> B) (o : out A) : out B := match o with Val v => Val (f v) | Ub => Ub | NoFuel => NoFuel end.
Section J.
Variable e : R.
Notation N := (NumR e).
Notation cj := (cj e).
Notation nonreal := (nonreal e).
Lemma omap_bind {A B} (f : B -> cpx N) (o : out A) g h : (forall a, g a = omap f (h a)) -> bind o g = omap f (bind o h).
Proof. intros H. destruct o; cbn; [apply H|reflexivity..]. Qed.
Lemma czero_cj : czero N = cj (czero N). Proof. apply cj_zero. Qed.
Lemma series_cj n z : forall fuel k s p, Li_series_loop N fuel n (cj z) k (cj s) (cj p) = omap cj (Li_series_loop N fuel n z k s p).
Proof.
  induction fuel as [|f IH]; intros k s p; [reflexivity|]. cbn [Li_series_loop]. apply omap_bind. intros a. cbv zeta.
  rewrite cj_add, cj_mul_cr, cj_mul, cj_finite, cj_eqb.
  destruct (negb _); [reflexivity|]. destruct (_ && _)%bool; [apply IH|reflexivity].
Qed.
Lemma Li_series_cj fuel n z : Li_series N fuel n (cj z) = omap cj (Li_series N fuel n z).
Proof. unfold Li_series. rewrite czero_cj at 1. apply series_cj. Qed.
Lemma up1_cj n l : forall c j s p, Li_unity_pos_loop1 N c j n (cj l) (cj s) (cj p) = omap (fun x => (cj (fst x), cj (snd x))) (Li_unity_pos_loop1 N c j n l s p).
Proof.
  induction c as [|c IH]; intros j s p; [reflexivity|]. cbn [Li_unity_pos_loop1]. cbv zeta.
  destruct (zeta N (n - j)); cbn [bind omap]; [|reflexivity..]. rewrite cj_div_cr, cj_mul, cj_mul_rc, cj_add. apply IH.
Qed.
Lemma up2_cj n l : forall f j s p, Li_unity_pos_loop2 N f j n (cj l) (cj s) (cj p) = omap cj (Li_unity_pos_loop2 N f j n l s p).
Proof.
  induction f as [|f IH]; intros j s p; [reflexivity|]. cbn [Li_unity_pos_loop2]. cbv zeta.
  destruct (j <? _)%Z; [|reflexivity]. apply omap_bind. intros jj. apply omap_bind. intros nj. apply omap_bind. intros v.
  rewrite cj_div_cr, cj_mul, cj_mul_rc, cj_add, cj_eqb. destruct (ceqb _ _ _); [reflexivity|]. apply omap_bind. intros j'. apply IH.
Qed.
Lemma up2_cj' n l f j s p s' p' : s' = cj s -> p' = cj p -> Li_unity_pos_loop2 N f j n (cj l) s' p' = omap cj (Li_unity_pos_loop2 N f j n l s p).
Proof. intros -> ->. apply up2_cj. Qed.
Lemma Li_unity_pos_cj fuel n z : nonreal z -> Li_unity_pos N fuel n (cj z) = omap cj (Li_unity_pos N fuel n z).
Proof.
  intros H. unfold Li_unity_pos. cbv zeta. rewrite cj_Li_clog by exact H. set (l := Li_clog N z).
  assert (HL : nonreal l) by (apply nr_Li_clog; exact H). rewrite cj_mul, cj_opp, (cj_Li_clog e (copp N l)) by (auto with cj).
  apply omap_bind. intros zn. apply omap_bind. intros nm1.
  rewrite (cj_zero e zn) at 1. rewrite (cj_zero e (lit N 1 0)) at 1. rewrite up1_cj.
  destruct (Li_unity_pos_loop1 N _ _ n l _ _) as [[s p]| |]; cbn [bind omap fst snd]; [|reflexivity..].
  apply omap_bind. intros h. apply omap_bind. intros z0. apply omap_bind. intros np1. apply omap_bind. intros zm1. apply omap_bind. intros np3.
  apply up2_cj'; cjt.
Qed.
Lemma pm1 n : powerRZ (-1) n = if Z.even n then 1 else -1.
Proof.
  assert (D : forall k, powerRZ (-1) (k + k) = 1).
  { intros k. rewrite powerRZ_add by lra. rewrite <- powerRZ_mult. replace (-1 * -1) with 1 by ring. apply powerRZ_R1. }
  destruct (Z.even n) eqn:E.
  - apply Zeven_bool_iff in E. apply Zeven_ex in E. destruct E as [k ->]. replace (2 * k)%Z with (k + k)%Z by lia. apply D.
  - assert (O : Z.odd n = true) by (rewrite <- Z.negb_even, E; reflexivity). apply Zodd_bool_iff in O. apply Zodd_ex in O. destruct O as [k ->].
    replace (2 * k + 1)%Z with (k + k + 1)%Z by lia. rewrite powerRZ_add, D by lra. rewrite powerRZ_1. ring.
Qed.
Lemma opow_int (y : R) (n : Z) : y <> 0 -> opow (Some y) (Some (IZR n)) = Some (powerRZ y n).
Proof.
  intros H. unfold opow. rewrite Zfloor_IZR. destruct (Rlt_dec 0 y) as [A|A]; [rewrite powerRZ_Rpower by exact A; reflexivity|].
  destruct (Req_EM_T (IZR n) (IZR n)); [|congruence]. destruct (Req_EM_T y 0); [contradiction|reflexivity].
Qed.
Lemma opow_opp (y : N) (n : Z) : y <> Some 0 -> npow N (opp N y) (ofZ N n) = if Z.even n then npow N y (ofZ N n) else opp N (npow N y (ofZ N n)).
Proof.
  destruct y as [y|]; [|destruct (Z.even n); reflexivity]. intros H. assert (Y : y <> 0) by congruence. cbn [npow opp ofZ NumR lift1].
  rewrite !opow_int by lra. replace (- y) with (-1 * y) by ring. rewrite powerRZ_mult, pm1. destruct (Z.even n); cbn [lift1]; f_equal; ring.
Qed.
Lemma stable_pow_cj z n : nonreal z -> stable_pow N (cj z) n = omap cj (stable_pow N z n).
Proof.
  intros H. unfold stable_pow. rewrite !snd_cj, fst_cj, (nr_eqb e z H), (nr_eqb' e z H). rewrite (opow_opp (snd z) n H).
  destruct (eqb N (fst z) (lit N 0 0)).
  - destruct (Z.eqb_spec (Z.rem n 4) 0) as [A|A].
    + assert (E : Z.even n = true) by (apply Z.rem_divide in A; [|lia]; destruct A as [k ->]; rewrite Z.even_mul; destruct (Z.even k); reflexivity).
      rewrite E. cbn [omap]. rewrite <- cj_zero. reflexivity.
    + destruct (Z.eqb_spec (Z.rem n 2) 0) as [B|B].
      * assert (E : Z.even n = true) by (apply Z.rem_divide in B; [|lia]; destruct B as [k ->]; rewrite Z.even_mul; destruct (Z.even k); reflexivity).
        rewrite E. cbn [omap]. rewrite <- cj_zero. reflexivity.
      * assert (E : Z.even n = false).
        { destruct (Z.even n) eqn:E; [|reflexivity]. elim B. apply Zeven_bool_iff, Zeven_ex in E. destruct E as [k ->]. rewrite Z.mul_comm. apply Z.rem_mul. lia. }
        rewrite E. apply omap_bind. intros m. destruct (_ =? 0)%Z; reflexivity.
  - cbn [omap]. f_equal. unfold cpow. rewrite snd_cj, (nr_eqb e z H), (nr_eqb' e z H). cbn [andb]. cbv zeta.
    rewrite cj_log by exact H. rewrite fst_cj, snd_cj. unfold Conj.cj. cbn [fst snd]. destruct (fst (clog N z)), (snd (clog N z)); cbn; try reflexivity.
    replace (IZR n * - r0) with (- (IZR n * r0)) by ring. rewrite cos_neg, sin_neg. f_equal. f_equal. ring.
Qed.
Lemma un_cj n l : forall f k lk s, Li_unity_neg_loop N f n k (cj l) (cj lk) (cj s) = omap cj (Li_unity_neg_loop N f n k l lk s).
Proof.
  induction f as [|f IH]; intros k lk s; [reflexivity|]. cbn [Li_unity_neg_loop]. cbv zeta.
  apply omap_bind. intros nk. apply omap_bind. intros v. apply omap_bind. intros w.
  rewrite cj_mul_rc, cj_finite. destruct (negb _); [reflexivity|]. apply omap_bind. intros k'. rewrite cj_add, cj_eqb, cj_mul.
  destruct (ceqb _ _ _); [reflexivity|]. apply IH.
Qed.
Lemma Li_unity_neg_cj fuel n z : nonreal z -> Li_unity_neg N fuel n (cj z) = omap cj (Li_unity_neg N fuel n z).
Proof.
  intros H. unfold Li_unity_neg. cbv zeta. rewrite cj_Li_clog by exact H. set (l := Li_clog N z).
  assert (HL : nonreal l) by (apply nr_Li_clog; exact H). rewrite cj_mul, cj_opp.
  apply omap_bind. intros o. apply omap_bind. intros nm1. rewrite stable_pow_cj by (auto with cj).
  destruct (stable_pow N (copp N l) nm1) as [p| |]; cbn [bind omap]; [|reflexivity..]. rewrite cj_mul_rc.
  destruct (is_even n); [apply un_cj|]. apply omap_bind. intros w. rewrite cj_add_cr. apply un_cj.
Qed.
Lemma rl_cj n l : forall c k s p, Li_rest_loop N c k n (cj l) (cj s) (cj p) =
  omap (fun x => match x with inl a => inl (cj a) | inr (a, b) => inr (cj a, cj b) end) (Li_rest_loop N c k n l s p).
Proof.
  induction c as [|c IH]; intros k s p; [reflexivity|]. cbn [Li_rest_loop]. cbv zeta.
  destruct (inv_fac N (n - 2 * k)); cbn [bind]; [|reflexivity..]. destruct (eqb _ _ _); [reflexivity|].
  destruct (neg_eta N (2 * k)); cbn [bind]; [|reflexivity..]. rewrite cj_mul_rc, cj_add, cj_mul.
  match goal with |- context[ceqb N (cj ?a) (czero N)] => replace (ceqb N (cj a) (czero N)) with (ceqb N a (czero N)) by (rewrite czero_cj at 2; symmetry; apply cj_eqb) end.
  destruct (ceqb _ _ _); [reflexivity|]. apply IH.
Qed.
Lemma Li_rest_cj n z : nonreal z -> Li_rest N n (cj z) = omap cj (Li_rest N n z).
Proof.
  intros H. unfold Li_rest. cbv zeta. rewrite cj_opp, (cj_Li_clog e (copp N z)) by (auto with cj). set (l := Li_clog N (copp N z)). rewrite cj_mul.
  set (k := if is_even n then _ else _). 
  replace (if is_even n then (lit N 1 0, lit N 0 0) else cj l) with (cj (if is_even n then (lit N 1 0, lit N 0 0) else l)) by (destruct (is_even n); [symmetry; apply cj_zero|reflexivity]).
  rewrite czero_cj at 1. rewrite rl_cj. destruct (Li_rest_loop N _ k n _ _ _) as [[a|[a b]]| |]; cbn [bind omap]; [| |reflexivity..].
  - rewrite cj_mul_rc. reflexivity.
  - apply omap_bind. intros f. cbn [omap]. f_equal. cjt.
Qed.
Lemma csqrt_cj z : nonreal z -> csqrt N (cj z) = cj (csqrt N z).
Proof.
  intros H. unfold csqrt. cbv zeta. rewrite cj_abs, cj_arg by exact H. unfold Conj.cj. cbn [fst snd]. rewrite lit_int.
  destruct (carg N z) as [t|]; [|destruct (nsqrt N (cabs N z)); reflexivity]. cbn [opp div NumR lift1]. rewrite !odiv_some by lra.
  replace (- t / 2) with (- (t / 2)) by field. cbn [ncos nsin NumR lift1]. rewrite cos_neg, sin_neg.
  destruct (nsqrt N (cabs N z)) as [r|]; cbn; [|reflexivity]. f_equal. f_equal. ring.
Qed.
Lemma nr_sqrt z : nonreal z -> nonreal (csqrt N z).
Proof.
  destruct z as [[x|] [y|]]; unfold Conj.nonreal; intros H; try discriminate. cbn [snd] in H. assert (Y : y <> 0) by congruence.
  change (Some x, Some y) with (ofC e (x, y)). unfold csqrt. rewrite ofC_abs, ofC_arg, lit_int. cbv zeta. cbn [nsqrt div NumR snd].
  rewrite odiv_some by lra. unfold osqrt. assert (Z0 : (x, y) <> RtoC 0) by (intros E; injection E; intros; contradiction).
  pose proof (proj1 (Cmod_gt_0 (x, y)) Z0) as M. destruct (Rle_dec 0 (Cmod (x, y))) as [H0|H0]; [|lra].
  cbn. intros E. injection E. intros Q. apply Rmult_integral in Q. pose proof (sqrt_lt_R0 _ M). destruct Q as [Q|Q]; [lra|].
  pose proof (atan2_range y x) as R. pose proof (atan2_0_iff y x) as T. unfold Carg in Q. cbn [fst snd] in Q.
  assert (A : atan2R y x <> 0) by (intros F; apply Y, T, F). assert (P : 0 < PI) by apply PI_RGT_0.
  destruct (Rtotal_order (atan2R y x) 0) as [L|[L|L]]; [|contradiction|].
  - pose proof (sin_gt_0 (- (atan2R y x / 2))) as G. rewrite sin_neg in G. lra.
  - pose proof (sin_gt_0 (atan2R y x / 2)). lra.
Qed.
Theorem Li_cj n : forall d fuel z, nonreal z -> Li N d fuel n (cj z) = omap cj (Li N d fuel n z).
Proof.
  induction d as [|d IH]; intros fuel z H; cbn [Li]; cbv zeta; rewrite fst_cj, snd_cj, (nr_eqb e z H), (nr_eqb' e z H), !andb_false_r.
  all: replace (isnan N (opp N (snd z))) with (isnan N (snd z)) by (destruct (snd z); reflexivity).
  all: replace (isinf N (opp N (snd z))) with (isinf N (snd z)) by reflexivity.
  all: destruct (_ || _)%bool; [reflexivity|]; destruct (_ || _)%bool; [cbn [omap]; rewrite <- cj_zero; reflexivity|].
  all: rewrite cj_norm, (cj_Li_clog e z H), cj_norm, cj_sub_rc, (cj_Li_clog e (csub_rc N (lit N 1 0) z)) by (auto with cj).
  all: destruct (n <? -1)%Z.
  1, 3: destruct (ltb N _ _); [apply Li_series_cj|]; destruct (ltb N _ _); [apply Li_unity_neg_cj; exact H|].
  1: reflexivity.
  1: apply omap_bind; intros m; rewrite (csqrt_cj z H), cj_opp.
  1: rewrite (IH fuel (csqrt N z)) by (apply nr_sqrt; exact H); rewrite (IH fuel (copp N (csqrt N z))) by (apply nr_opp, nr_sqrt; exact H).
  1: destruct (Li N d fuel n (csqrt N z)); cbn [bind omap]; [|reflexivity..]; destruct (Li N d fuel n (copp N (csqrt N z))); cbn [bind omap]; [|reflexivity..]; f_equal; cjt.
  all: destruct (n =? -1)%Z; [cbn [omap]; f_equal; cjt|].
  all: destruct (n =? 0)%Z; [cbn [omap]; f_equal; cjt|].
  all: destruct (n =? 1)%Z; [cbn [omap]; f_equal; cjt|].
  all: destruct (n =? 2)%Z; [cbn [omap]; f_equal; apply conj2; exact H|].
  all: destruct (n =? 3)%Z; [cbn [omap]; f_equal; apply conj3_d; exact H|].
  all: destruct (n =? 4)%Z; [cbn [omap]; f_equal; apply conj4_d; exact H|].
  all: destruct (n =? 5)%Z; [cbn [omap]; f_equal; apply conj5_d; exact H|].
  all: destruct (n =? 6)%Z; [cbn [omap]; f_equal; apply conj6_d; exact H|].
  all: destruct (leb N _ _); [apply Li_series_cj|].
  all: destruct (leb N _ _); [|apply Li_unity_pos_cj; exact H].
  all: rewrite cj_div_rc, Li_series_cj, Li_rest_cj by exact H.
  all: destruct (Li_series N fuel n _); cbn [bind omap]; [|reflexivity..]; destruct (Li_rest N n z); cbn [bind omap]; [|reflexivity..]; f_equal; cjt.
Qed.
End J.
