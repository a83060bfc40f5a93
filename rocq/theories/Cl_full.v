(** * Cl2 .. Cl6 on the whole real line, in exact arithmetic

    Argument reduction in the model subtracts multiples of twice the literal
    for pi and reflects at the two-part literal p0 + p1 for 2 pi.  The result
    is therefore the Clausen function at an angle x' whose distance from x is
    at most the relative error of those literals. *)
From Coq Require Import Reals Lra Lia Psatz ZArith List Bool.
From Flocq Require Import Core.
From Coquelicot Require Import Coquelicot.
From Verif Require Import Num NumR Eval_R Consts Model_Cl16 Cl_shape Clausen Clausen_ref Proof_Cl Polylog.
Import ListNotations.
Local Open Scope R_scope.

(** |x| lies in a gap (2Pk + S, 2P(k+1)): its reflection p0 - x + p1 would be negative *)
Definition in_gap (P S x : R) : Prop := exists k : Z, (0 <= k)%Z /\ IZR k * (2 * P) + S < Rabs x < (IZR k + 1) * (2 * P).

Definition redk (P a : R) : Z := if Rle_dec (2 * P) a then Ztrunc (a / (2 * P)) else 0%Z.
Lemma redk_ok P a : 0 < P -> 0 <= a -> (0 <= redk P a)%Z /\ 0 <= a - 2 * P * IZR (redk P a) < 2 * P.
Proof.
  intros HP Ha. unfold redk. destruct (Rle_dec (2 * P) a) as [L|L].
  - assert (0 <= a / (2 * P)) by (apply Rdiv_le_0_compat; lra). rewrite Ztrunc_floor by assumption.
    split; [apply Zfloor_lub; assumption|]. pose proof (Zfloor_lb (a / (2 * P))). pose proof (Zfloor_ub (a / (2 * P))).
    assert (E : a = 2 * P * (a / (2 * P))) by (field; lra). set (q := a / (2 * P)) in *. rewrite E at 1 2. split; nra.
  - split; [lia|]. lra.
Qed.
Lemma redk_R P a ep : 0 < P -> (if leb (NumR ep) (mul (NumR ep) (lit (NumR ep) 2 0) (Some P)) (Some a)
   then nfmod (NumR ep) (Some a) (mul (NumR ep) (lit (NumR ep) 2 0) (Some P)) else Some a) = Some (a - 2 * P * IZR (redk P a)).
Proof.
  intros HP. cbn [NumR lit mul leb nfmod car lift2 ocmp]. rewrite litR_int. unfold redk, Rleb. destruct (Rle_dec (2 * P) a).
  - unfold ofmod. destruct (Req_EM_T (2 * P) 0); [lra|]. reflexivity.
  - f_equal. ring.
Qed.

Section Red.
Variables (ep P p1 S eps : R) (core : option R -> option R) (n : nat).
Hypothesis HP : 3 < P < 4.
Hypothesis HS : S = litR 628125 (-5) + p1.
Hypothesis HSP : Rabs (S - 2 * P) < / 4.
Hypothesis core_ok : forall x, 0 < x < P + / 2 -> (Nat.even n = true -> x <> P) -> exists v, core (Some x) = Some v /\ Rabs (v - Clspec n x) <= eps.
Definition dist (x : R) : R := Rabs x / P * Rabs (P - PI) + Rabs (2 * PI - S).

Section Geo.
Variable x : R.
Hypothesis NG : ~ in_gap P S x.
Let a := Rabs x. Let k := redk P a. Let b := a - 2 * P * IZR k.
Definition sg : R := if Rlt_dec x 0 then -1 else 1.
Definition redb : R := Rabs x - 2 * P * IZR (redk P (Rabs x)).
Definition redc : R := if Rlt_dec P redb then S - redb else redb.
Definition redx : R := sg * ((if Rlt_dec P redb then 2 * PI - redc else redc) + 2 * PI * IZR (redk P (Rabs x))).
Lemma sg_abs : sg * Rabs x = x.
Proof. unfold sg. destruct (Rlt_dec x 0); [rewrite Rabs_left|rewrite Rabs_pos_eq]; lra. Qed.
Lemma redb_rng : 0 <= redb < 2 * P.
Proof. apply (redk_ok P (Rabs x)); [lra|apply Rabs_pos]. Qed.
Lemma redb_S : redb <= S.
Proof.
  destruct (Rle_lt_dec redb S) as [|L]; [assumption|]. exfalso. apply NG. exists (redk P (Rabs x)).
  pose proof redb_rng as B. pose proof (redk_ok P (Rabs x) ltac:(lra) (Rabs_pos x)) as [K _]. unfold redb in *. split; [exact K|]. split; lra.
Qed.
Lemma redc_rng : 0 <= redc < P + / 4.
Proof.
  pose proof redb_rng. pose proof redb_S. apply Rabs_lt_between in HSP. unfold redc. destruct (Rlt_dec P redb); lra.
Qed.
Lemma redx_dist : Rabs (redx - x) <= dist x.
Proof.
  unfold dist. pose proof (redk_ok P (Rabs x) ltac:(lra) (Rabs_pos x)) as [K B]. assert (K' : 0 <= IZR (redk P (Rabs x))) by (apply (IZR_le 0); exact K).
  rewrite <- sg_abs at 1. unfold redx. set (kk := IZR (redk P (Rabs x))) in *.
  assert (E : Rabs x = redb + 2 * P * kk) by (unfold redb; fold kk; ring).
  assert (G : 2 * kk <= Rabs x / P) by (apply (Rmult_le_reg_r P); [lra|]; replace (Rabs x / P * P) with (Rabs x) by (field; lra); pose proof redb_rng; lra).
  set (h := if Rlt_dec P redb then 2 * PI - redc else redc).
  assert (H : Rabs (h - redb) <= Rabs (2 * PI - S)).
  { unfold h, redc. destruct (Rlt_dec P redb); [right; f_equal; ring|]. replace (redb - redb) with 0 by ring. rewrite Rabs_R0. apply Rabs_pos. }
  replace (sg * (h + 2 * PI * kk) - sg * Rabs x) with (sg * ((h - redb) - 2 * kk * (P - PI))) by (rewrite E; ring).
  rewrite Rabs_mult. replace (Rabs sg) with 1 by (unfold sg; destruct (Rlt_dec x 0); [rewrite Rabs_left|rewrite Rabs_pos_eq]; lra). rewrite Rmult_1_l.
  unfold Rminus at 1. eapply Rle_trans; [apply Rabs_triang|]. rewrite Rabs_Ropp, Rabs_mult, (Rabs_pos_eq (2 * kk)) by lra.
  pose proof (Rabs_pos (P - PI)). nra.
Qed.
Lemma redx_small : Rabs x <= P -> redx = x.
Proof.
  intros H. unfold redx. assert (K : redk P (Rabs x) = 0%Z) by (unfold redk; destruct (Rle_dec (2 * P) (Rabs x)); [lra|reflexivity]).
  assert (B : redb = Rabs x) by (unfold redb; rewrite K; ring). unfold redc. rewrite K, B. destruct (Rlt_dec P (Rabs x)); [lra|].
  rewrite Rmult_0_r, Rplus_0_r. apply sg_abs.
Qed.
Lemma Cl_redx : Clspec n redx = (if Nat.even n then sg else 1) * (if Rlt_dec P redb then par n else 1) * Clspec n redc.
Proof.
  unfold redx. set (h := if Rlt_dec P redb then 2 * PI - redc else redc).
  assert (E : Clspec n (sg * (h + 2 * PI * IZR (redk P (Rabs x)))) = (if Nat.even n then sg else 1) * Clspec n h).
  { unfold sg. destruct (Rlt_dec x 0).
    - replace (-1 * (h + 2 * PI * IZR (redk P (Rabs x)))) with (- (h + 2 * PI * IZR (redk P (Rabs x)))) by ring.
      rewrite Clspec_opp, Clspec_per. unfold par. destruct (Nat.even n); reflexivity.
    - rewrite Rmult_1_l, Clspec_per. destruct (Nat.even n); ring. }
  rewrite E. unfold h. destruct (Rlt_dec P redb); [|ring].
  rewrite Rmult_assoc, <- Clspec_opp. f_equal. rewrite <- (Clspec_per n (- redc) 1). f_equal. ring.
Qed.
End Geo.

Local Notation pr := (@pair (car (NumR ep)) (car (NumR ep))).
Theorem even_full x : Nat.even n = true -> ~ in_gap P S x -> Rabs (Clspec n P) <= eps ->
  exists v x', cl_even (NumR ep) (Some P) (Some p1) core (Some x) = Some v /\ Rabs (v - Clspec n x') <= eps /\ Rabs (x' - x) <= dist x /\ (Rabs x <= P -> x' = x).
Proof.
  intros En NG HE. assert (E0 : 0 <= eps) by (eapply Rle_trans; [apply Rabs_pos|exact HE]).
  pose proof (redx_dist x) as D. pose proof (redx_small x) as SM. pose proof (redc_rng x NG) as C. pose proof (Cl_redx x) as F. rewrite En in F.
  unfold cl_even.
  assert (S1 : (if ltb (NumR ep) (Some x) (lit (NumR ep) 0 0) then pr (opp (NumR ep) (Some x)) (lit (NumR ep) (-1) 0) else pr (Some x) (lit (NumR ep) 1 0)) = pr (Some (Rabs x)) (Some (sg x))).
  { cbn [NumR lit ltb opp car ocmp lift1]. rewrite !litR_int. unfold Rltb, sg. destruct (Rlt_dec x 0); [rewrite Rabs_left|rewrite Rabs_pos_eq]; reflexivity || lra. }
  rewrite S1. cbv beta iota. rewrite redk_R by lra. fold (redb x).
  assert (S2 : (if ltb (NumR ep) (Some P) (Some (redb x)) then pr (add (NumR ep) (sub (NumR ep) (lit (NumR ep) 628125 (-5)) (Some (redb x))) (Some p1)) (opp (NumR ep) (Some (sg x))) else pr (Some (redb x)) (Some (sg x)))
     = pr (Some (redc x)) (Some (sg x * (if Rlt_dec P (redb x) then -1 else 1)))).
  { cbn [NumR lit ltb opp sub add car ocmp lift1 lift2]. unfold Rltb, redc. destruct (Rlt_dec P (redb x)); f_equal; f_equal; [rewrite HS| | ]; ring. }
  rewrite S2. cbv beta iota. unfold par in F. rewrite En in F. set (u := sg x * (if Rlt_dec P (redb x) then -1 else 1)) in *.
  assert (U : Rabs u = 1). { unfold u, sg. destruct (Rlt_dec x 0), (Rlt_dec P (redb x)); (rewrite Rabs_left by lra) || (rewrite Rabs_pos_eq by lra); lra. }
  cbn [NumR lit eqb mul car ocmp]. rewrite litR_int.
  destruct (Req_dec (redc x) 0) as [Z|Z].
  { rewrite Reqb_true by exact Z. exists (redc x), (redx x). split; [reflexivity|]. split; [|split; assumption].
    rewrite F, Z. unfold Clspec. rewrite En, Fourier.sinser_0, Rmult_0_r, Rminus_0_r, Rabs_R0. exact E0. }
  rewrite Reqb_false by exact Z. destruct (Req_dec (redc x) P) as [Y|Y].
  { rewrite Reqb_true by exact Y. exists 0, (redx x). split; [reflexivity|]. split; [|split; assumption].
    rewrite F, Y. unfold Rminus. rewrite Rplus_0_l, Rabs_Ropp, Rabs_mult, U, Rmult_1_l. exact HE. }
  rewrite Reqb_false by exact Y. destruct (core_ok (redc x) ltac:(lra) (fun _ => Y)) as (v & -> & V). cbn [lift2].
  exists (u * v), (redx x). split; [reflexivity|]. split; [|split; assumption].
  rewrite F. replace (u * v - u * Clspec n (redc x)) with (u * (v - Clspec n (redc x))) by ring. rewrite Rabs_mult, U, Rmult_1_l. exact V.
Qed.
Theorem odd_full x z : Nat.even n = false -> ~ in_gap P S x -> (redc x = 0 -> exists z0, z = Some z0 /\ Rabs (z0 - Clspec n 0) <= eps) ->
  exists v x', cl_odd (NumR ep) (Some P) (Some p1) z core (Some x) = Some v /\ Rabs (v - Clspec n x') <= eps /\ Rabs (x' - x) <= dist x /\ (Rabs x <= P -> x' = x).
Proof.
  intros En NG HE.
  pose proof (redx_dist x) as D. pose proof (redx_small x) as SM. pose proof (redc_rng x NG) as C. pose proof (Cl_redx x) as F. rewrite En in F.
  unfold par in F. rewrite En in F. replace (if Rlt_dec P (redb x) then 1 else 1) with 1 in F by (destruct (Rlt_dec P (redb x)); reflexivity). rewrite !Rmult_1_l in F.
  unfold cl_odd.
  assert (S1 : (if ltb (NumR ep) (Some x) (lit (NumR ep) 0 0) then opp (NumR ep) (Some x) else Some x) = Some (Rabs x)).
  { cbn [NumR lit ltb opp car ocmp lift1]. rewrite !litR_int. unfold Rltb. destruct (Rlt_dec x 0); [rewrite Rabs_left|rewrite Rabs_pos_eq]; reflexivity || lra. }
  rewrite S1. cbv zeta. rewrite redk_R by lra. fold (redb x).
  assert (S2 : (if ltb (NumR ep) (Some P) (Some (redb x)) then add (NumR ep) (sub (NumR ep) (lit (NumR ep) 628125 (-5)) (Some (redb x))) (Some p1) else Some (redb x)) = Some (redc x)).
  { cbn [NumR lit ltb opp sub add car ocmp lift1 lift2]. unfold Rltb, redc. destruct (Rlt_dec P (redb x)); [f_equal; rewrite HS; ring|reflexivity]. }
  rewrite S2. cbn [NumR lit eqb mul car ocmp]. rewrite litR_int.
  destruct (Req_dec (redc x) 0) as [Z|Z].
  { rewrite Reqb_true by exact Z. destruct (HE Z) as (z0 & -> & HZ). exists z0, (redx x). split; [reflexivity|]. split; [|split; assumption]. rewrite F, Z. exact HZ. }
  rewrite Reqb_false by exact Z. destruct (core_ok (redc x) ltac:(lra) ltac:(intros Q; rewrite En in Q; discriminate)) as (v & -> & V).
  exists v, (redx x). split; [reflexivity|]. split; [|split; assumption]. rewrite F. exact V.
Qed.
End Red.

(** ** instances *)
Lemma HPd : 3 < Pd < 4. Proof. pose proof Pd_err. pose proof PI_dec20. lra. Qed.
Lemma HPl : 3 < Pl < 4. Proof. pose proof Pl_err. pose proof PI_dec20. lra. Qed.
Lemma HSd : Sd = litR 628125 (-5) + IZR 19353071795864769253 / 10 ^ 22. Proof. rewrite p0_R. reflexivity. Qed.
Lemma HSl : Sl = litR 628125 (-5) + IZR 19353071795864769252867665590057683943 / 10 ^ 40. Proof. rewrite p0_R. reflexivity. Qed.
Lemma HSPd : Rabs (Sd - 2 * Pd) < / 4. Proof. pose proof Pd_err. pose proof Sd_err as E. apply Rabs_le_between in E. apply Rabs_lt_between. lra. Qed.
Lemma HSPl : Rabs (Sl - 2 * Pl) < / 4. Proof. pose proof Pl_err. pose proof Sl_err as E. apply Rabs_le_between in E. apply Rabs_lt_between. lra. Qed.
Lemma dist_d x : dist Pd Sd x <= 6 / 10 ^ 19 * Rabs x + 1 / 10 ^ 19.
Proof.
  unfold dist. pose proof Pd_err. pose proof Sd_err. pose proof HPd. rewrite (Rabs_pos_eq (Pd - PI)) by lra. pose proof (Rabs_pos x).
  assert (Rabs x / Pd <= Rabs x / 3) by (apply Rmult_le_compat_l; [lra|apply Rinv_le_contravar; lra]). nra.
Qed.
Lemma dist_l x : dist Pl Sl x <= 14 / 10 ^ 37 * Rabs x + 1 / 10 ^ 38.
Proof.
  unfold dist. pose proof Pl_err. pose proof Sl_err. pose proof HPl. rewrite (Rabs_left (Pl - PI)) by lra. pose proof (Rabs_pos x).
  assert (Rabs x / Pl <= Rabs x / 3) by (apply Rmult_le_compat_l; [lra|apply Rinv_le_contravar; lra]). nra.
Qed.
(** the long double literals leave no gap *)
Lemma no_gap_l x : ~ in_gap Pl Sl x.
Proof. intros (k & K & A & B). assert (2 * Pl <= Sl) by (unfold Pl, Sl; lra). lra. Qed.
Lemma Clspec_at_P n P d : Nat.even n = true -> (2 <= n)%nat -> Rabs (P - PI) <= d -> d <= / 10 -> Rabs (Clspec n P) <= 2 * d.
Proof.
  intros En Hn H Hd. assert (E : Clspec n PI = 0) by (unfold Clspec; rewrite En; apply Fourier.sinser_PI).
  pose proof PI_dec20. pose proof (Clspec_Lip' n P PI Hn ltac:(apply Rabs_le_between in H; lra) ltac:(lra)) as L. rewrite E, Rminus_0_r in L. lra.
Qed.
Lemma Clspec_0 n : Nat.even n = false -> (2 <= n)%nat -> Clspec n 0 = ReLi n 1.
Proof. intros E H. unfold Clspec. rewrite E. apply Fourier.cosser_0. exact H. Qed.
Theorem Cl2_d_accuracy ep x : ~ in_gap Pd Sd x -> exists v x', Cl2_d (NumR ep) (Some x) = Some v /\ Rabs (v - Clspec 2 x') <= 3 / 10 ^ 17 /\
  Rabs (x' - x) <= 6 / 10 ^ 19 * Rabs x + 1 / 10 ^ 19 /\ (Rabs x <= Pd -> x' = x).
Proof.
  intros NG. rewrite Cl2_d_shape, PId_R, p1d_R.
  edestruct (even_full ep Pd _ Sd (3 / 10 ^ 17) (Cl2_d_core (NumR ep)) 2 HPd HSd HSPd) as (v & x' & E & V & D & SM); [intros y Hy N; apply core2d; [exact Hy|exact (N eq_refl)]|reflexivity|exact NG| |].
  - eapply Rle_trans; [apply (Clspec_at_P 2 Pd (16 / 10 ^ 19)); [reflexivity|lia|pose proof Pd_err; apply Rabs_le; lra|lra]|lra].
  - exists v, x'. split; [exact E|]. split; [exact V|]. split; [eapply Rle_trans; [exact D|apply dist_d]|exact SM].
Qed.
Theorem Cl3_d_accuracy ep x : ~ in_gap Pd Sd x -> exists v x', Cl3_d (NumR ep) (Some x) = Some v /\ Rabs (v - Clspec 3 x') <= 1 / 10 ^ 16 /\
  Rabs (x' - x) <= 6 / 10 ^ 19 * Rabs x + 1 / 10 ^ 19 /\ (Rabs x <= Pd -> x' = x).
Proof.
  intros NG. rewrite Cl3_d_shape, PId_R, p1d_R.
  change (lit (NumR ep) 12020569031595943 (-16)) with (Some (litR 12020569031595943 (-16))). rewrite lit_Z3d.
  edestruct (odd_full ep Pd _ Sd (1 / 10 ^ 16) (Cl3_d_core (NumR ep)) 3 HPd HSd HSPd) as (v & x' & E & V & D & SM); [intros y Hy N; apply core3d; exact Hy|reflexivity|exact NG| |].
  - intros _. exists Z3d. split; [reflexivity|]. rewrite Clspec_0 by (reflexivity || lia). eapply Rle_trans; [apply Z3d_err|lra].
  - exists v, x'. split; [exact E|]. split; [exact V|]. split; [eapply Rle_trans; [exact D|apply dist_d]|exact SM].
Qed.
Theorem Cl4_d_accuracy ep x : ~ in_gap Pd Sd x -> exists v x', Cl4_d (NumR ep) (Some x) = Some v /\ Rabs (v - Clspec 4 x') <= 1 / 10 ^ 16 /\
  Rabs (x' - x) <= 6 / 10 ^ 19 * Rabs x + 1 / 10 ^ 19 /\ (Rabs x <= Pd -> x' = x).
Proof.
  intros NG. rewrite Cl4_d_shape, PId_R, p1d_R.
  edestruct (even_full ep Pd _ Sd (1 / 10 ^ 16) (Cl4_d_core (NumR ep)) 4 HPd HSd HSPd) as (v & x' & E & V & D & SM); [intros y Hy N; apply core4d; [exact Hy|exact (N eq_refl)]|reflexivity|exact NG| |].
  - eapply Rle_trans; [apply (Clspec_at_P 4 Pd (16 / 10 ^ 19)); [reflexivity|lia|pose proof Pd_err; apply Rabs_le; lra|lra]|lra].
  - exists v, x'. split; [exact E|]. split; [exact V|]. split; [eapply Rle_trans; [exact D|apply dist_d]|exact SM].
Qed.
Theorem Cl5_d_accuracy ep x : ~ in_gap Pd Sd x -> exists v x', Cl5_d (NumR ep) (Some x) = Some v /\ Rabs (v - Clspec 5 x') <= 7 / 10 ^ 17 /\
  Rabs (x' - x) <= 6 / 10 ^ 19 * Rabs x + 1 / 10 ^ 19 /\ (Rabs x <= Pd -> x' = x).
Proof.
  intros NG. rewrite Cl5_d_shape, PId_R, p1d_R.
  change (lit (NumR ep) 10369277551433699 (-16)) with (Some (litR 10369277551433699 (-16))). rewrite lit_Z5d.
  edestruct (odd_full ep Pd _ Sd (7 / 10 ^ 17) (Cl5_d_core (NumR ep)) 5 HPd HSd HSPd) as (v & x' & E & V & D & SM); [intros y Hy N; apply core5d; exact Hy|reflexivity|exact NG| |].
  - intros _. exists Z5d. split; [reflexivity|]. rewrite Clspec_0 by (reflexivity || lia). eapply Rle_trans; [apply Z5d_err|lra].
  - exists v, x'. split; [exact E|]. split; [exact V|]. split; [eapply Rle_trans; [exact D|apply dist_d]|exact SM].
Qed.
Theorem Cl6_d_accuracy ep x : ~ in_gap Pd Sd x -> exists v x', Cl6_d (NumR ep) (Some x) = Some v /\ Rabs (v - Clspec 6 x') <= 6 / 10 ^ 16 /\
  Rabs (x' - x) <= 6 / 10 ^ 19 * Rabs x + 1 / 10 ^ 19 /\ (Rabs x <= Pd -> x' = x).
Proof.
  intros NG. rewrite Cl6_d_shape, PId_R, p1d_R.
  edestruct (even_full ep Pd _ Sd (6 / 10 ^ 16) (Cl6_d_core (NumR ep)) 6 HPd HSd HSPd) as (v & x' & E & V & D & SM); [intros y Hy N; apply core6d; [exact Hy|exact (N eq_refl)]|reflexivity|exact NG| |].
  - eapply Rle_trans; [apply (Clspec_at_P 6 Pd (16 / 10 ^ 19)); [reflexivity|lia|pose proof Pd_err; apply Rabs_le; lra|lra]|lra].
  - exists v, x'. split; [exact E|]. split; [exact V|]. split; [eapply Rle_trans; [exact D|apply dist_d]|exact SM].
Qed.
Theorem Cl2_l_accuracy ep x : exists v x', Cl2_l (NumR ep) (Some x) = Some v /\ Rabs (v - Clspec 2 x') <= 1 / 10 ^ 35 /\
  Rabs (x' - x) <= 14 / 10 ^ 37 * Rabs x + 1 / 10 ^ 38 /\ (Rabs x <= Pl -> x' = x).
Proof.
  pose proof (no_gap_l x) as NG. rewrite Cl2_l_shape, PIl_R, p1l_R.
  edestruct (even_full ep Pl _ Sl (1 / 10 ^ 35) (Cl2_l_core (NumR ep)) 2 HPl HSl HSPl) as (v & x' & E & V & D & SM); [intros y Hy N; apply core2l; [exact Hy|exact (N eq_refl)]|reflexivity|exact NG| |].
  - eapply Rle_trans; [apply (Clspec_at_P 2 Pl (42 / 10 ^ 37)); [reflexivity|lia|pose proof Pl_err; apply Rabs_le; lra|lra]|lra].
  - exists v, x'. split; [exact E|]. split; [exact V|]. split; [eapply Rle_trans; [exact D|apply dist_l]|exact SM].
Qed.
Theorem Cl3_l_accuracy ep x : exists v x', Cl3_l (NumR ep) (Some x) = Some v /\ Rabs (v - Clspec 3 x') <= 7 / 10 ^ 26 /\
  Rabs (x' - x) <= 14 / 10 ^ 37 * Rabs x + 1 / 10 ^ 38 /\ (Rabs x <= Pl -> x' = x).
Proof.
  pose proof (no_gap_l x) as NG. rewrite Cl3_l_shape, PIl_R, p1l_R.
  change (lit (NumR ep) 12020569031595942853997381615114499908 (-37)) with (Some (litR 12020569031595942853997381615114499908 (-37))). rewrite lit_Z3l.
  edestruct (odd_full ep Pl _ Sl (7 / 10 ^ 26) (Cl3_l_core (NumR ep)) 3 HPl HSl HSPl) as (v & x' & E & V & D & SM); [intros y Hy N; apply core3l; exact Hy|reflexivity|exact NG| |].
  - intros _. exists Z3l. split; [reflexivity|]. rewrite Clspec_0 by (reflexivity || lia). eapply Rle_trans; [apply Z3l_err|lra].
  - exists v, x'. split; [exact E|]. split; [exact V|]. split; [eapply Rle_trans; [exact D|apply dist_l]|exact SM].
Qed.
Theorem Cl4_l_accuracy ep x : exists v x', Cl4_l (NumR ep) (Some x) = Some v /\ Rabs (v - Clspec 4 x') <= 1 / 10 ^ 25 /\
  Rabs (x' - x) <= 14 / 10 ^ 37 * Rabs x + 1 / 10 ^ 38 /\ (Rabs x <= Pl -> x' = x).
Proof.
  pose proof (no_gap_l x) as NG. rewrite Cl4_l_shape, PIl_R, p1l_R.
  edestruct (even_full ep Pl _ Sl (1 / 10 ^ 25) (Cl4_l_core (NumR ep)) 4 HPl HSl HSPl) as (v & x' & E & V & D & SM); [intros y Hy N; apply core4l; [exact Hy|exact (N eq_refl)]|reflexivity|exact NG| |].
  - eapply Rle_trans; [apply (Clspec_at_P 4 Pl (42 / 10 ^ 37)); [reflexivity|lia|pose proof Pl_err; apply Rabs_le; lra|lra]|lra].
  - exists v, x'. split; [exact E|]. split; [exact V|]. split; [eapply Rle_trans; [exact D|apply dist_l]|exact SM].
Qed.
Theorem Cl5_l_accuracy ep x : exists v x', Cl5_l (NumR ep) (Some x) = Some v /\ Rabs (v - Clspec 5 x') <= 7 / 10 ^ 26 /\
  Rabs (x' - x) <= 14 / 10 ^ 37 * Rabs x + 1 / 10 ^ 38 /\ (Rabs x <= Pl -> x' = x).
Proof.
  pose proof (no_gap_l x) as NG. rewrite Cl5_l_shape, PIl_R, p1l_R.
  change (lit (NumR ep) 1036927755143369926331365486457034168057 (-39)) with (Some (litR 1036927755143369926331365486457034168057 (-39))). rewrite lit_Z5l.
  edestruct (odd_full ep Pl _ Sl (7 / 10 ^ 26) (Cl5_l_core (NumR ep)) 5 HPl HSl HSPl) as (v & x' & E & V & D & SM); [intros y Hy N; apply core5l; exact Hy|reflexivity|exact NG| |].
  - intros _. exists Z5l. split; [reflexivity|]. rewrite Clspec_0 by (reflexivity || lia). eapply Rle_trans; [apply Z5l_err|lra].
  - exists v, x'. split; [exact E|]. split; [exact V|]. split; [eapply Rle_trans; [exact D|apply dist_l]|exact SM].
Qed.
Theorem Cl6_l_accuracy ep x : exists v x', Cl6_l (NumR ep) (Some x) = Some v /\ Rabs (v - Clspec 6 x') <= 1 / 10 ^ 25 /\
  Rabs (x' - x) <= 14 / 10 ^ 37 * Rabs x + 1 / 10 ^ 38 /\ (Rabs x <= Pl -> x' = x).
Proof.
  pose proof (no_gap_l x) as NG. rewrite Cl6_l_shape, PIl_R, p1l_R.
  edestruct (even_full ep Pl _ Sl (1 / 10 ^ 25) (Cl6_l_core (NumR ep)) 6 HPl HSl HSPl) as (v & x' & E & V & D & SM); [intros y Hy N; apply core6l; [exact Hy|exact (N eq_refl)]|reflexivity|exact NG| |].
  - eapply Rle_trans; [apply (Clspec_at_P 6 Pl (42 / 10 ^ 37)); [reflexivity|lia|pose proof Pl_err; apply Rabs_le; lra|lra]|lra].
  - exists v, x'. split; [exact E|]. split; [exact V|]. split; [eapply Rle_trans; [exact D|apply dist_l]|exact SM].
Qed.

(** ** Cl1: the closed form, which is the sum of cos(kx)/k wherever that converges *)
Lemma Cl1_spec x : 0 < x < 2 * PI -> Clspec 1 x = - ln (2 * sin (x / 2)).
Proof. intros H. apply is_series_unique. apply Fourier.cosser_1. exact H. Qed.
Lemma Cl1_shape N x : Cl1_d N x = cl_odd N (PId N) (p1d N) (inf N) (fun x => opp N (nlog N (mul N (lit N 2 0) (nsin N (mul N (lit N 5 (-1)) x))))) x.
Proof. reflexivity. Qed.
Theorem Cl1_d_accuracy ep x : ~ in_gap Pd Sd x -> (forall k : Z, Rabs x <> IZR k * (2 * Pd) /\ Rabs x <> IZR k * (2 * Pd) + Sd) ->
  exists v x', Cl1_d (NumR ep) (Some x) = Some v /\ v = Clspec 1 x' /\ Rabs (x' - x) <= 6 / 10 ^ 19 * Rabs x + 1 / 10 ^ 19 /\ (Rabs x <= Pd -> x' = x).
Proof.
  intros NG NZ. rewrite Cl1_shape, PId_R, p1d_R.
  edestruct (odd_full ep Pd _ Sd 0 (fun x => opp (NumR ep) (nlog (NumR ep) (mul (NumR ep) (lit (NumR ep) 2 0) (nsin (NumR ep) (mul (NumR ep) (lit (NumR ep) 5 (-1)) x))))) 1 HPd HSd HSPd)
    as (v & x' & E & V & D & SM); [| reflexivity | exact NG | |].
  - intros y Hy _. cbn [NumR opp nlog mul lit nsin car lift1 lift2]. rewrite litR_int, litR_half. pose proof HPd. pose proof Pd_err. pose proof PI_dec20.
    assert (S0 : 0 < sin (/ 2 * y)) by (apply sin_gt_0; lra). rewrite olog_some by lra. cbn [lift1]. eexists. split; [reflexivity|].
    rewrite Cl1_spec by lra. replace (y / 2) with (/ 2 * y) by field. rewrite Rminus_diag_eq, Rabs_R0 by reflexivity. lra.
  - intros Z. exfalso. destruct (NZ (redk Pd (Rabs x))) as [N1 N2]. unfold redc in Z. destruct (Rlt_dec Pd (redb Pd x)); unfold redb in Z; lra.
  - exists v, x'. split; [exact E|]. split; [|split; [eapply Rle_trans; [exact D|apply dist_d]|exact SM]].
    apply Rabs_le_between in V. lra.
Qed.
