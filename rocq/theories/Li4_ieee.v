(** * Real Li4 in IEEE double: all finite arguments *)
From Coq Require Import ZArith Reals Bool Lia Lra Psatz List.
From Coquelicot Require Import Coquelicot.
From Interval Require Import Tactic.
From Flocq Require Import Core Relative Sterbenz Mult_error IEEE754.BinarySingleNaN.
From Verif Require Import Num NumR Eval_R NumB NumB_facts Proof_Float Libm Ferr FerrB Fcalc Polylog Polylog_eqs Fourier Consts Model_LiR Chain Proof_Li2 Proof_Li3 Proof_Li4 Ieee Li2_ieee Li34_ieee Li34_core Li3_ieee.
Import ListNotations.
Local Open Scope R_scope.

(** the value of the series at 1 in exact arithmetic *)
Definition one4v (l g : R) : R :=
  ReLi 4 1 + l * (ReLi 3 1 + l * (/ 2 * ReLi 2 1 + l * (11 / 36 - 1 / 6 * g + l * (-1 / 48 + l * (-1 / 1440 + l * l * (1 / 604800 - 1 / 91445760 * (l * l))))))).
Lemma one4v_ok x : x < 1 -> 0 < x -> - (9 / 40) < ln x -> Rabs (one4v (ln x) (ln (- ln x)) - ReLi 4 x) <= 12 / 10 ^ 18.
Proof.
  intros Hx X0 LB. assert (L : ln x < 0) by (rewrite <- ln_1; apply ln_increasing; lra).
  pose proof (one4 (- ln x) ltac:(lra)) as O. rewrite Ropp_involutive, exp_ln in O by lra.
  unfold ref4, xl in O. rewrite (Rabs_pos_eq (- ln x)) in O by lra. set (l := ln x) in *.
  replace (rp s3 4 1 (- l) / 30240) with (- (l ^ 5 / 1440 - l ^ 7 / 604800 + l ^ 9 / 91445760)) in O.
  2: { unfold s3. cbn [rp poch]. change (2 * 1)%nat with 2%nat. change (2 * 2)%nat with 4%nat. change (2 * 3)%nat with 6%nat. cbn [Nat.add Nat.sub]. simpl INR. field. }
  match type of O with Rabs (_ - ?v) <= _ => replace (one4v l (ln (- l))) with v by (unfold one4v; field) end.
  rewrite Rabs_minus_sym. eapply Rle_trans; [exact O|]. lra.
Qed.

Section C.
Variable L : libm 53 1024.
Hypothesis HL : libm_ok (Hp := Hp53) (He := He53) L.
Notation N := (B64 L).
Local Notation NN := (NumB 53 1024 Hp53 He53 L).

Lemma E_nq q : (1 <= q <= 10 ^ 9)%Z -> E (div N (lit N (-1) 0) (lit N q 0)) (-1 / IZR q) (1 / IZR q) 1.1.
Proof. intros H. pose proof (E_quot L (-1) q ltac:(lia) H) as Q. replace (Rabs (-1)) with 1 in Q by (rewrite Rabs_left; lra). exact Q. Qed.
Lemma one4_A (y : fl) : is_finite y = true -> 0 < B2R y < 1 -> - (9 / 40) < ln (B2R y) -> A (li4_one N y) (ReLi 4 (B2R y)) (92 * u).
Proof.
  intros Fy Hy Hl. destruct ctx as (U & T & V0 & V4 & VH & BG). destruct vu2 as [vu vu1]. pose proof (below_1 L y ltac:(lra)) as BY. set (Y := B2R y) in *.
  assert (l0 : ln Y <= - u) by (pose proof (ln_le_sub1 Y ltac:(lra)); lra).
  pose proof (E_log L HL y Fy ltac:(fold Y; lra)) as El. fold Y in El. rewrite (Rabs_left (ln Y)) in El by lra. specialize (El ltac:(lra) ltac:(lra)).
  pose proof (one4v_ok Y ltac:(lra) ltac:(lra) Hl) as OV. set (l := ln Y) in *. set (a := - l) in *.
  assert (a0 : u <= a <= 9 / 40) by (unfold a; lra).
  (* the logarithm of minus the logarithm *)
  destruct El as (Fl & Dl & El'). destruct (opp_r 53 1024 Hp53 He53 L (nlog N y) Fl) as [Fo Vo]. change (opp NN (nlog N y)) with (opp N (nlog N y)) in Fo, Vo.
  assert (Dt : Rabs (B2R (opp N (nlog N y)) - a) <= 5 * u * a) by (rewrite Vo; unfold a; replace (- B2R (nlog N y) - - l) with (- (B2R (nlog N y) - l)) by ring; rewrite Rabs_Ropp; exact Dl).
  destruct (ln_rel2 (B2R (opp N (nlog N y))) a (5 * u) ltac:(lra) ltac:(lra) Dt) as [t0 Dln].
  assert (b0 : 149 / 100 <= - ln a). { assert (ln a <= ln (9 / 40)) by (apply ln_le; lra). assert (149 / 100 <= - ln (9 / 40)) by interval. lra. }
  assert (b1 : - ln a <= 100). { assert (ln u <= ln a) by (apply ln_le; lra). assert (- 100 <= ln u) by (rewrite u_val; interval). lra. }
  pose proof (yln a ltac:(lra)) as ab.
  pose proof (E_log L HL (opp N (nlog N y)) Fo t0) as Eg. set (gt := ln (B2R (opp N (nlog N y)))) in *. apply Rabs_le_between in Dln. rewrite (Rabs_left gt) in Eg by lra. specialize (Eg ltac:(lra) ltac:(lra)).
  assert (Eg2 : E (nlog N (opp N (nlog N y))) (ln a) (- ln a) 12).
  { apply (E_A _ _ (5 * u * (- ln a + 10 * u) + 10 * u)); [|rewrite Rabs_left; lra| |lra|lra].
    - destruct (A_E _ _ _ _ Eg) as [F D]. split; [exact F|]. apply Rabs_le_between in D. assert (5 * u * - gt <= 5 * u * (- ln a + 10 * u)) by (apply Rmult_le_compat_l; lra). apply Rabs_le. lra.
    - assert (u * (149 / 100) <= u * - ln a) by (apply Rmult_le_compat_l; lra). assert (u * u <= / 10 ^ 15 * u) by (apply Rmult_le_compat_r; lra). lra. }
  assert (El2 : E (nlog N y) l a 5) by (split; [exact Fl|split; [exact Dl|exact El']]).
  unfold li4_one. set (lf := nlog N y) in *. set (gf := nlog N (opp N lf)) in *. set (b := - ln a) in *. change (- l) with a in OV.
  assert (lb : ln a = - b) by (unfold b; ring). rewrite lb in OV, Eg2. clear Dl El' Eg t0 Dt Dln lb. clearbody b lf gf. clear Vo Fo gt Fl.
  assert (ul : l = - a) by (unfold a; ring).
  assert (aa : u * u <= a * a <= 81 / 1600) by (split; [|replace (81 / 1600) with ((9 / 40) * (9 / 40)) by field]; apply Rmult_le_compat; lra).
  pose proof (E_mul L _ _ _ _ _ _ _ _ El2 El2 ltac:(lra) ltac:(lra)) as E2.
  pose proof (E_mul L _ _ _ _ _ _ _ _ (E_q L 1 91445760 ltac:(lia) ltac:(lia)) E2 ltac:(lra) ltac:(lra)) as E3.
  pose proof (E_sub L _ _ _ _ _ _ _ _ 13.3 (E_q L 1 604800 ltac:(lia) ltac:(lia)) E3 ltac:(lra) ltac:(lra) ltac:(lra) ltac:(lra)) as E4.
  set (P1 := 1 / 604800 + 1 / 91445760 * (a * a)) in *. assert (p1 : 1 / 604800 <= P1 <= / 10 ^ 5) by (unfold P1; lra). 
  assert (q1 : u * u * (1 / 604800) <= a * a * P1 <= 81 / 1600 * / 10 ^ 5) by (split; apply Rmult_le_compat; try lra; apply Rmult_le_pos; lra).
  pose proof (E_mul L _ _ _ _ _ _ _ _ E2 E4 ltac:(lra) ltac:(lra)) as E5.
  pose proof (E_add L _ _ _ _ _ _ _ _ 26.6 (E_nq 1440 ltac:(lia)) E5 ltac:(lra) ltac:(lra) ltac:(lra) ltac:(lra)) as E6.
  set (P2 := 1 / 1440 + a * a * P1) in *. assert (uu0 : 0 <= u * u) by (apply Rmult_le_pos; lra). assert (p2 : 1 / 1440 <= P2 <= / 1000) by (unfold P2; lra).
  assert (q2 : u * (1 / 1440) <= a * P2 <= 9 / 40 * / 1000) by (split; apply Rmult_le_compat; lra).
  pose proof (E_mul L _ _ _ _ _ _ _ _ El2 E6 ltac:(lra) ltac:(lra)) as E7.
  pose proof (E_add L _ _ _ _ _ _ _ _ 33.8 (E_nq 48 ltac:(lia)) E7 ltac:(lra) ltac:(lra) ltac:(lra) ltac:(lra)) as E8.
  set (P3 := 1 / 48 + a * P2) in *. assert (p3 : 1 / 48 <= P3 <= 22 / 1000) by (unfold P3; lra).
  assert (q3 : u * (1 / 48) <= a * P3 <= 9 / 40 * (22 / 1000)) by (split; apply Rmult_le_compat; lra).
  pose proof (E_mul L _ _ _ _ _ _ _ _ El2 E8 ltac:(lra) ltac:(lra)) as E9.
  pose proof (E_mul L _ _ _ _ _ _ _ _ (E_q L 1 6 ltac:(lia) ltac:(lia)) Eg2 ltac:(lra) ltac:(lra)) as E10.
  pose proof (E_sub L _ _ _ _ _ _ _ _ 14.2 (E_q L 11 36 ltac:(lia) ltac:(lia)) E10 ltac:(lra) ltac:(lra) ltac:(lra) ltac:(lra)) as E11.
  pose proof (E_add L _ _ _ _ _ _ _ _ 41 E11 E9 ltac:(lra) ltac:(lra) ltac:(lra) ltac:(lra)) as E12.
  assert (q4 : u * (11 / 36) <= a * (11 / 36 + 1 / 6 * b + a * P3) <= 155 / 1000).
  { assert (p4 : 11 / 36 <= 11 / 36 + 1 / 6 * b + a * P3) by lra. split; [apply Rmult_le_compat; lra|]. replace (a * (11 / 36 + 1 / 6 * b + a * P3)) with (11 / 36 * a + 1 / 6 * (b * a) + a * (a * P3)) by ring. assert (a * (a * P3) <= 9 / 40 * (9 / 40 * (22 / 1000))) by (apply Rmult_le_compat; lra). lra. }
  pose proof (E_mul L _ _ _ _ _ _ _ _ El2 E12 ltac:(lra) ltac:(lra)) as E13.
  pose proof (E_mul L _ _ _ _ _ _ _ _ (E_half L) (E_z2 L) ltac:(lra) ltac:(lra)) as E14.
  pose proof (E_add L _ _ _ _ _ _ _ _ 48.2 E14 E13 ltac:(lra) ltac:(lra) ltac:(lra) ltac:(lra)) as E15.
  set (P5 := / 2 * (33 / 20) + a * (11 / 36 + 1 / 6 * b + a * P3)) in *. assert (p5 : 33 / 40 <= P5 <= 981 / 1000) by (unfold P5; lra).
  assert (q5 : u * (33 / 40) <= a * P5 <= 9 / 40 * (981 / 1000)) by (split; apply Rmult_le_compat; lra).
  pose proof (E_mul L _ _ _ _ _ _ _ _ El2 E15 ltac:(lra) ltac:(lra)) as E16.
  pose proof (E_add L _ _ _ _ _ _ _ _ 55.4 (E_z3 L) E16 ltac:(lra) ltac:(lra) ltac:(lra) ltac:(lra)) as E17.
  set (P6 := 61 / 50 + a * P5) in *. assert (p6 : 61 / 50 <= P6 <= 1441 / 1000) by (unfold P6; lra).
  assert (q6 : u * (61 / 50) <= a * P6 <= 9 / 40 * (1441 / 1000)) by (split; apply Rmult_le_compat; lra).
  pose proof (E_mul L _ _ _ _ _ _ _ _ El2 E17 ltac:(lra) ltac:(lra)) as E18.
  pose proof (E_add L _ _ _ _ _ _ _ _ 62.6 (E_z4 L) E18 ltac:(lra) ltac:(lra) ltac:(lra) ltac:(lra)) as E19.
  apply A_E in E19. fold (one4v l (- b)) in E19. destruct E19 as [F D]. split; [exact F|].
  assert (D2 : (62.6 + 1.1) * u * (109 / 100 + a * P6) <= (62.6 + 1.1) * u * (109 / 100 + 9 / 40 * (1441 / 1000))) by (apply Rmult_le_compat_l; lra).
  apply Rabs_le_between in D. apply Rabs_le_between in OV. assert (12 / 10 ^ 18 <= u) by (rewrite u_val; lra). apply Rabs_le. lra.
Qed.

(** the inner selection *)
Lemma lit8 : is_finite (lit N 8 (-1)) = true /\ B2R (lit N 8 (-1)) = rnd (4 / 5).
Proof.
  destruct (lit_okf L 8 (-1)) as [F D]. { rewrite (litR10 _ 1 1) by reflexivity. rewrite Rabs_pos_eq by lra. pose proof big64_ge. assert (1 <= 2 ^ 200) by (apply pow_R1_Rle; lra). lra. }
  split; [exact F|]. rewrite D. rewrite (litR10 _ 1 1) by reflexivity. change (rnd64 (8 / 10 ^ 1)) with (rnd (8 / 10 ^ 1)). f_equal. lra.
Qed.
Definition cov (y c : R) : Prop := 2796 <= c \/ (116 <= c /\ (y < / 2 \/ 4 / 5 < y)).
Lemma app4_A (y : fl) c : is_finite y = true -> -1 <= B2R y < 1 -> cov (B2R y) c -> A (app4 N y) (ReLi 4 (B2R y)) (c * u * Rabs (B2R y) + 45 * eta).
Proof.
  intros Fy Hy Hc. destruct ctx as (U & T & V0 & V4 & VH & BG). destruct (int_v L 0 ltac:(lia)) as [F0 W0]. destruct (half_v L) as [Fh Vh]. destruct lit8 as [F8 V8].
  assert (Hc0 : 116 <= c) by (destruct Hc as [Hc|[Hc _]]; lra). pose proof (Rabs_pos (B2R y)) as Y0. assert (uY : 0 <= u * Rabs (B2R y)) by (apply Rmult_le_pos; lra).
  assert (CY : 116 * (u * Rabs (B2R y)) <= c * (u * Rabs (B2R y))) by (apply Rmult_le_compat_r; lra).
  unfold app4. pose proof (Bltb_R 53 1024 Hp53 He53 L) as BL. change NN with N in BL.
  rewrite (BL y (lit N 0 0)), W0 by assumption. case Rlt_bool_spec; intros C1; [eapply A_weak; [apply (neg4_A L y Fy); lra|]; lra|].
  rewrite (BL y (lit N 5 (-1))), Vh by assumption. case Rlt_bool_spec; intros C2; [eapply A_weak; [apply (half4_A L y Fy); lra|]; lra|].
  rewrite (BL y (lit N 8 (-1))), V8 by assumption. rewrite (Rabs_pos_eq (B2R y)) in * by lra. case Rlt_bool_spec; intros C3.
  - assert (Y8 : B2R y <= 4 / 5). { destruct (Rle_dec (B2R y) (4 / 5)) as [Q|Q]; [exact Q|]. exfalso. assert (rnd (4 / 5) <= rnd (B2R y)) by (apply rmono; lra). pose proof (rnd_B 53 1024 y) as RB. lra. }
    assert (c1 : 2796 <= c) by (destruct Hc as [Hc|[_ [Hc|Hc]]]; lra). eapply A_weak; [apply (mid4_A L y Fy); lra|]. assert (2796 * (u * B2R y) <= c * (u * B2R y)) by (apply Rmult_le_compat_r; lra). assert (u * / 2 <= u * B2R y) by (apply Rmult_le_compat_l; lra). lra.
  - pose proof (rnd_err 53 1024 Hp53 (4 / 5)) as R. fold u eta in R. rewrite (Rabs_pos_eq (4 / 5)) in R by lra. apply Rabs_le_between in R. assert (Y8 : 7999 / 10000 <= B2R y) by lra.
    eapply A_weak; [apply (one4_A y Fy ltac:(lra))|].
    + assert (ln (7999 / 10000) <= ln (B2R y)) by (apply ln_le; lra). assert (- (9 / 40) < ln (7999 / 10000)) by interval. lra.
    + assert (u * (7999 / 10000) <= u * B2R y) by (apply Rmult_le_compat_l; lra). lra.
Qed.
Lemma mul_unit s (f : fl) : s = 1%Z \/ s = (-1)%Z -> is_finite f = true -> Rabs (B2R f) <= BIG 1024 -> is_finite (mul N (lit N s 0) f) = true /\ B2R (mul N (lit N s 0) f) = IZR s * B2R f.
Proof.
  intros Hs Ff Hf. destruct (int_v L s ltac:(destruct Hs; subst; lia)) as [F1 V1].
  assert (AB : Rabs (IZR s * B2R f) = Rabs (B2R f)) by (destruct Hs; subst; rewrite Rabs_mult; [rewrite Rabs_R1; ring|rewrite (Rabs_left (-1)) by lra; ring]).
  destruct (mul_r 53 1024 Hp53 He53 ltac:(lia) ltac:(lia) ltac:(lia) L (lit N s 0) f F1 Ff) as [P Q]. { rewrite V1, AB. exact Hf. }
  split; [exact P|]. change (mul N (lit N s 0) f) with (mul NN (lit N s 0) f). rewrite Q, V1. destruct Hs; subst.
  - rewrite Rmult_1_l. apply rnd_B.
  - replace (-1 * B2R f) with (- B2R f) by ring. destruct (opp_r 53 1024 Hp53 He53 L f Ff) as [_ Vo]. rewrite <- Vo. apply rnd_B.
Qed.
Lemma li4_one_bd t : -1 <= t <= 1 -> Rabs (ReLi 4 t) <= 5.
Proof.
  intros Ht. destruct (Rle_dec t (/ 2)) as [Q|Q].
  - eapply Rle_trans; [apply li_up; [lia|lra]|]. assert (Rabs t <= 1) by (apply Rabs_le; lra). lra.
  - pose proof (li_lip1 4 t 0 ltac:(lia) ltac:(lra) ltac:(lra)) as Z. rewrite (ReLi_0 4), !Rminus_0_r in Z by lia. rewrite (Rabs_pos_eq t) in Z by lra. lra.
Qed.
Lemma sg_A s (f : fl) v e : s = 1%Z \/ s = (-1)%Z -> A f v e -> Rabs v <= 5 -> e <= 5 -> A (mul N (lit N s 0) f) (IZR s * v) e.
Proof.
  intros Hs [F D] Hv He. destruct ctx as (U & T & V0 & V4 & VH & BG).
  assert (Rabs (B2R f) <= 10). { replace (B2R f) with ((B2R f - v) + v) by ring. eapply Rle_trans; [apply Rabs_triang|]. lra. }
  destruct (mul_unit s f Hs F ltac:(lra)) as [P Q]. split; [exact P|]. rewrite Q. replace (IZR s * B2R f - IZR s * v) with (IZR s * (B2R f - v)) by ring. rewrite Rabs_mult. replace (Rabs (IZR s)) with 1; [lra|]. destruct Hs; subst; [rewrite Rabs_R1; reflexivity|rewrite Rabs_left; lra].
Qed.

Definition bound4 (c x : R) : R := c * u * sizen 4 x + 100 * eta.
Lemma bound4_of c x e T : 0 <= c -> 0 <= T <= sizen 4 x -> e <= c * u * T + 100 * eta -> e <= bound4 c x.
Proof. intros C0 H G. unfold bound4. pose proof u_b. assert (c * u * T <= c * u * sizen 4 x) by (apply Rmult_le_compat_l; [apply Rmult_le_pos; lra|lra]). lra. Qed.

(** |x| > 1: the remainder and the final sum *)
Lemma big4 (x : fl) (rf af : fl) X l r0 a0 cr ca c W : 1 <= Rabs X -> ln (Rabs X) = l -> 0 <= l <= 1000 ->
  E rf r0 W cr -> A af a0 (ca * u) -> Rabs a0 <= 5 -> 0 <= ca <= 10 ^ 5 -> 0 <= W <= 10 ^ 15 -> 0 <= c -> (cr + 1.1) * W + ca + 6 <= c * (1 + l ^ 4) -> r0 + a0 = ReLi 4 X ->
  A (add N rf af) (ReLi 4 X) (bound4 c X).
Proof.
  intros HX Hl Bl Er Aa Ba Hca HW Hc0 Hc Hv. destruct ctx as (U & T & V0 & V4 & VH & BG).
  assert (Br : Rabs r0 <= W) by exact (proj1 (proj2 (proj2 Er))). assert (Cr : 0 <= cr <= 10 ^ 6) by exact (proj2 (proj2 (proj2 (proj2 Er)))). apply A_E in Er.
  assert (uW : 0 <= u * W <= / 10 ^ 15 * W) by (split; [apply Rmult_le_pos; lra|apply Rmult_le_compat_r; lra]).
  assert (cuW : 0 <= cr * (u * W) <= 10 ^ 6 * (u * W)) by (split; [apply Rmult_le_pos; lra|apply Rmult_le_compat_r; lra]).
  assert (cau : 0 <= ca * u <= 10 ^ 5 * / 10 ^ 15) by (split; [apply Rmult_le_pos; lra|apply Rmult_le_compat; lra]).
  pose proof (Rabs_triang r0 a0) as TR.
  pose proof (A_add 53 1024 Hp53 He53 ltac:(lia) ltac:(lia) ltac:(lia) L _ _ _ _ _ _ (11 / 10 * W + 11 / 2) Er Aa ltac:(lra) ltac:(lra)) as S. rewrite Hv in S.
  eapply A_weak; [exact S|]. pose proof (sizen_big 4 X HX) as SZ. rewrite Hl in SZ. assert (0 <= l ^ 4) by (apply pow_le; lra). apply (bound4_of c X _ (1 + l ^ 4) Hc0 ltac:(lra)).
  apply (Rmult_le_compat_l u) in Hc; [|lra]. lra.
Qed.
Definition MM (l : R) := (1 + l) * (1 + l).
Lemma MM_rng l : 0 <= l <= 1000 -> 1 <= 1 + l <= 1001 /\ 1 <= MM l <= 1002001 /\ 1 <= MM l * MM l <= 10 ^ 13.
Proof.
  intros H. assert (A1 : 1 <= MM l <= 1002001) by (unfold MM; split; [replace 1 with (1 * 1) at 1 by ring|replace 1002001 with (1001 * 1001) by ring]; apply Rmult_le_compat; lra).
  split; [lra|]. split; [exact A1|]. split; [replace 1 with (1 * 1) at 1 by ring; apply Rmult_le_compat; lra|]. apply Rle_trans with (1002001 * 1002001); [apply Rmult_le_compat; lra|lra].
Qed.
Lemma sizeW l : 0 <= l -> 31 * (109 / 50 + MM l * (33 / 20 + 1 / 24 * MM l)) + 128 <= 300 * (1 + l ^ 4).
Proof.
  intros Hl. unfold MM. cbn [pow].
  assert (H1 : 0 <= (l * l - 1 / 3) * (l * l - 1 / 3)) by apply Rle_0_sqr. assert (H2 : 0 <= (l - 11 / 20) * (l - 11 / 20)) by apply Rle_0_sqr.
  assert (H3 : 0 <= l * ((l - 1 / 2) * (l - 1 / 2))) by (apply Rmult_le_pos; [exact Hl|apply Rle_0_sqr]). assert (H4 : 0 <= l * l * ((l - 1 / 2) * (l - 1 / 2))) by (apply Rmult_le_pos; [apply Rmult_le_pos; exact Hl|apply Rle_0_sqr]).
  assert (H5 : 0 <= l * ((l - 3 / 5) * (l - 3 / 5))) by (apply Rmult_le_pos; [exact Hl|apply Rle_0_sqr]).
  nra.
Qed.
Lemma neg4 (x : fl) : is_finite x = true -> B2R x < -1 ->
  A (add N (add N (mul N (div N (lit N (-7) 0) (lit N 4 0)) (lit N 10823232337111382 (-16))) (mul N (mul N (nlog N (opp N x)) (nlog N (opp N x))) (sub N (mul N (lit N (-5) (-1)) (lit N 16449340668482264 (-16))) (mul N (div N (lit N 1 0) (lit N 24 0)) (mul N (nlog N (opp N x)) (nlog N (opp N x)))))))
      (mul N (lit N (-1) 0) (app4 N (div N (lit N 1 0) x)))) (ReLi 4 (B2R x)) (bound4 300 (B2R x)).
Proof.
  intros Fx Hx. destruct ctx as (U & T & V0 & V4 & VH & BG). destruct (opp_r 53 1024 Hp53 He53 L x Fx) as [Fo Vo]. change (opp NN x) with (opp N x) in Fo, Vo.
  destruct (inv_f L x Fx ltac:(rewrite Rabs_left by lra; lra)) as (Fi & Vi & Di & Bi). set (X := B2R x) in *.
  assert (I0 : -1 < / X < 0) by (split; [apply Rabs_def2 in Bi; lra|apply Rinv_lt_0_compat; lra]). rewrite (Rabs_left (/ X)) in Di by lra.
  assert (RI : -1 <= rnd (/ X) <= 0) by (split; [rewrite <- (rint L (-1) ltac:(lia)); apply rmono; lra|rewrite <- (rint L 0 ltac:(lia)); apply rmono; lra]).
  pose proof (app4_A _ 116 Fi ltac:(rewrite Vi; lra) ltac:(right; split; [lra|left; rewrite Vi; lra])) as C. rewrite Vi in C.
  assert (E0 : u * - / X <= u * 1) by (apply Rmult_le_compat_l; lra).
  pose proof (lip_A 4 _ _ (/ X) _ (u + eta) ltac:(lia) C ltac:(lra) ltac:(lra) ltac:(lra)) as C2.
  assert (R1 : 116 * u * Rabs (rnd (/ X)) <= 116 * u * 1) by (apply Rmult_le_compat_l; [lra|apply Rabs_le; lra]).
  apply (A_weak _ _ _ _ _ (118 * u)) in C2; [|lra]. pose proof (li4_one_bd (/ X) ltac:(lra)) as B5.
  apply (sg_A (-1)) in C2; [|right; reflexivity|exact B5|lra].
  pose proof (E_logL L HL (opp N x) Fo ltac:(rewrite Vo; fold X; lra)) as El. rewrite Vo in El. fold X in El.
  assert (l0 : 0 <= ln (- X)) by (rewrite <- ln_1; apply ln_le; lra). assert (l1 : ln (- X) <= 1000) by (pose proof (ln_le_1024 (opp N x) Fo) as Q; rewrite Vo in Q; apply Q; fold X; lra).
  pose proof (Li4_inversion (-1) X (or_intror eq_refl) ltac:(lra)) as IV. rewrite (Rabs_left X), Li2_m1, Li4_m1 in IV by lra.
  assert (lE : ln (Rabs X) = ln (- X)) by (rewrite Rabs_left by lra; reflexivity).
  set (l := ln (- X)) in *. rewrite (Rabs_pos_eq l) in El by lra. specialize (El ltac:(lra)). destruct (MM_rng l ltac:(lra)) as (M1 & M2 & M4).
  pose proof (E_mul L _ _ _ _ _ _ _ _ El El ltac:(fold (MM l); lra) ltac:(lra)) as E2. fold (MM l) in E2.
  pose proof (E_quot L (-7) 4 ltac:(lia) ltac:(lia)) as E7. replace (Rabs (-7)) with 7 in E7 by (rewrite Rabs_left; lra).
  pose proof (E_mul L _ _ _ _ _ _ _ _ E7 (E_z4 L) ltac:(lra) ltac:(lra)) as E74.
  pose proof (E_mul L _ _ _ _ _ _ _ _ (E_mhalf L) (E_z2 L) ltac:(lra) ltac:(lra)) as Eh.
  pose proof (E_mul L _ _ _ _ _ _ _ _ (E_q L 1 24 ltac:(lia) ltac:(lia)) E2 ltac:(lra) ltac:(lra)) as E3.
  pose proof (E_sub L _ _ _ _ _ _ _ _ 13.3 Eh E3 ltac:(lra) ltac:(lra) ltac:(lra) ltac:(lra)) as E4.
  assert (q1 : 1 <= MM l * (/ 2 * (33 / 20) + 1 / 24 * MM l) + 1 <= 10 ^ 13) by lra. assert (q2 : / 2 <= MM l * (/ 2 * (33 / 20) + 1 / 24 * MM l)) by lra.
  pose proof (E_mul L _ _ _ _ _ _ _ _ E2 E4 ltac:(lra) ltac:(lra)) as E5.
  pose proof (E_add L _ _ _ _ _ _ _ _ 26.6 E74 E5 ltac:(lra) ltac:(lra) ltac:(lra) ltac:(lra)) as E6.
  pose proof (sizeW l l0) as SW.
  refine (big4 x _ _ X l _ _ _ 118 300 _ _ lE _ E6 C2 _ _ _ _ _ _); [rewrite Rabs_left by lra; lra|lra| |lra|lra|lra| |].
  - rewrite Rabs_mult, (Rabs_left (-1)) by lra. lra.
  - lra.
  - cbn [pow] in IV. lra.
Qed.
Lemma gf_1u : generic_format radix2 fexp (1 - u).
Proof.
  replace (1 - u) with (pred radix2 fexp 1); [apply generic_format_pred; [apply (fexp_correct 53 1024 Hp53)|apply (gf_1 L)]|].
  change 1 with (bpow radix2 0) at 1. rewrite pred_bpow. unfold SpecFloat.fexp, SpecFloat.emin. rewrite Z.max_l by lia. unfold Fcalc.u. change (bpow radix2 0) with 1. change (0 - 53)%Z with (- (53))%Z. reflexivity.
Qed.
Lemma pos4 (x : fl) c : is_finite x = true -> 1 < B2R x -> 3000 <= c \/ (300 <= c /\ (B2R x <= 6 / 5 \/ 3 <= B2R x)) ->
  A (add N (add N (mul N (lit N 2 0) (lit N 10823232337111382 (-16))) (mul N (mul N (nlog N x) (nlog N x)) (sub N (lit N 16449340668482264 (-16)) (mul N (div N (lit N 1 0) (lit N 24 0)) (mul N (nlog N x) (nlog N x))))))
      (mul N (lit N (-1) 0) (app4 N (div N (lit N 1 0) x)))) (ReLi 4 (B2R x)) (bound4 c (B2R x)).
Proof.
  intros Fx Hx Hc. destruct ctx as (U & T & V0 & V4 & VH & BG). pose proof (above_1 L x ltac:(lra)) as BX.
  destruct (inv_f L x Fx ltac:(rewrite Rabs_pos_eq by lra; lra)) as (Fi & Vi & Di & Bi). pose proof (E_logL L HL x Fx ltac:(lra)) as El. pose proof (ln_le_1024 x Fx ltac:(lra)) as l1. set (X := B2R x) in *.
  assert (I1 : / X <= 1 - u). { apply (Rmult_le_reg_l X); [lra|]. rewrite Rinv_r by lra. assert ((1 + 2 * u) * (1 - u) <= X * (1 - u)) by (apply Rmult_le_compat_r; lra). assert (u * u <= / 10 ^ 15 * u) by (apply Rmult_le_compat_r; lra). lra. }
  assert (I0 : 0 < / X) by (apply Rinv_0_lt_compat; lra). rewrite (Rabs_pos_eq (/ X)) in Di by lra. assert (E0 : u * / X <= u * 1) by (apply Rmult_le_compat_l; lra).
  assert (RI : 0 <= rnd (/ X) <= 1 - u). { split; [rewrite <- (rint L 0 ltac:(lia)); apply rmono; lra|]. rewrite <- (round_generic radix2 fexp ZnearestE (1 - u) gf_1u). apply rmono; lra. }
  assert (K : exists k, cov (rnd (/ X)) k /\ 0 <= k <= 2796 /\ k + 184 <= c /\ 300 <= c).
  { destruct Hc as [Hc|[Hc Hr]]; [exists 2796; split; [left; lra|lra]|]. exists 116. split; [|lra]. right. split; [lra|]. apply Rabs_le_between in Di. destruct Hr as [Hr|Hr].
    - right. assert (/ (6 / 5) <= / X) by (apply Rinv_le_contravar; lra). lra.
    - left. assert (/ X <= / 3) by (apply Rinv_le_contravar; lra). lra. }
  destruct K as (k & Hk & K1 & K2 & K3).
  pose proof (app4_A _ k Fi ltac:(rewrite Vi; lra) ltac:(rewrite Vi; exact Hk)) as C. rewrite Vi in C.
  assert (C2 : A (app4 N (div N (lit N 1 0) x)) (ReLi 4 (/ X)) ((k + 6) * u)).
  { destruct C as [F D]. split; [exact F|]. pose proof (li_lip1 4 (rnd (/ X)) (/ X) ltac:(lia) ltac:(lra) ltac:(lra)) as LP.
    assert (R1 : k * u * Rabs (rnd (/ X)) <= k * u * 1) by (apply Rmult_le_compat_l; [apply Rmult_le_pos; lra|apply Rabs_le; lra]).
    replace (B2R (app4 N (div N (lit N 1 0) x)) - ReLi 4 (/ X)) with ((B2R (app4 N (div N (lit N 1 0) x)) - ReLi 4 (rnd (/ X))) + (ReLi 4 (rnd (/ X)) - ReLi 4 (/ X))) by ring. eapply Rle_trans; [apply Rabs_triang|]. lra. }
  pose proof (li4_one_bd (/ X) ltac:(lra)) as B5. assert (k * u <= 2796 * / 10 ^ 15) by (apply Rmult_le_compat; lra).
  apply (sg_A (-1)) in C2; [|right; reflexivity|exact B5|lra].
  assert (l0 : 0 <= ln X) by (rewrite <- ln_1; apply ln_le; lra).
  pose proof (Li4_inversion 1 X (or_introl eq_refl) ltac:(lra)) as IV. rewrite (Rabs_pos_eq X) in IV by lra.
  assert (lE : ln (Rabs X) = ln X) by (rewrite Rabs_pos_eq by lra; reflexivity).
  set (l := ln X) in *. rewrite (Rabs_pos_eq l) in El by lra. specialize (El ltac:(lra)). destruct (MM_rng l ltac:(lra)) as (M1 & M2 & M4).
  pose proof (E_mul L _ _ _ _ _ _ _ _ El El ltac:(fold (MM l); lra) ltac:(lra)) as E2. fold (MM l) in E2.
  pose proof (E_int L 2 ltac:(lia)) as Ei. rewrite (Rabs_pos_eq 2) in Ei by lra.
  pose proof (E_mul L _ _ _ _ _ _ _ _ Ei (E_z4 L) ltac:(lra) ltac:(lra)) as E74.
  pose proof (E_mul L _ _ _ _ _ _ _ _ (E_q L 1 24 ltac:(lia) ltac:(lia)) E2 ltac:(lra) ltac:(lra)) as E3.
  pose proof (E_sub L _ _ _ _ _ _ _ _ 13.3 (E_z2 L) E3 ltac:(lra) ltac:(lra) ltac:(lra) ltac:(lra)) as E4.
  assert (q1 : MM l * (33 / 20 + 1 / 24 * MM l) <= 10 ^ 13) by lra. assert (q2 : / 2 <= MM l * (33 / 20 + 1 / 24 * MM l)) by lra.
  pose proof (E_mul L _ _ _ _ _ _ _ _ E2 E4 ltac:(lra) ltac:(lra)) as E5.
  pose proof (E_add L _ _ _ _ _ _ _ _ 26.6 E74 E5 ltac:(lra) ltac:(lra) ltac:(lra) ltac:(lra)) as E6.
  pose proof (sizeW l l0) as SW. assert (l4 : 0 <= l ^ 4) by (apply pow_le; lra).
  assert (CC : 300 * (1 + l ^ 4) + (c - 300) <= c * (1 + l ^ 4)). { assert (0 <= (c - 300) * l ^ 4) by (apply Rmult_le_pos; lra). lra. }
  refine (big4 x _ _ X l _ _ _ (k + 6) c _ _ lE _ E6 C2 _ _ _ _ _ _); [rewrite Rabs_pos_eq by lra; lra|lra| |lra|lra|lra| |].
  - rewrite Rabs_mult, (Rabs_left (-1)) by lra. lra.
  - lra.
  - cbn [pow] in IV. lra.
Qed.
(** |x| < 1 *)
Lemma in4 (x : fl) c : is_finite x = true -> -1 < B2R x < 1 -> 3000 <= c \/ (300 <= c /\ (B2R x < / 2 \/ 4 / 5 < B2R x)) ->
  A (add N (lit N 0 0) (mul N (lit N 1 0) (app4 N x))) (ReLi 4 (B2R x)) (bound4 c (B2R x)).
Proof.
  intros Fx Hx Hc. destruct ctx as (U & T & V0 & V4 & VH & BG). destruct (int_v L 0 ltac:(lia)) as [F0 W0].
  assert (K : exists k, cov (B2R x) k /\ 0 <= k <= 2796 /\ k <= c) by (destruct Hc as [Hc|[Hc Hr]]; [exists 2796; split; [left; lra|lra]|exists 116; split; [right; split; [lra|exact Hr]|lra]]).
  destruct K as (k & Hk & K1 & K2). pose proof (app4_A x k Fx ltac:(lra) Hk) as C. pose proof (li4_one_bd (B2R x) ltac:(lra)) as B5.
  assert (Y1 : 0 <= Rabs (B2R x) <= 1) by (split; [apply Rabs_pos|apply Rabs_le; lra]). assert (uY : 0 <= u * Rabs (B2R x) <= u * 1) by (split; [apply Rmult_le_pos; lra|apply Rmult_le_compat_l; lra]).
  assert (kY : k * (u * Rabs (B2R x)) <= 2796 * (u * Rabs (B2R x))) by (apply Rmult_le_compat_r; lra). assert (kY2 : k * (u * Rabs (B2R x)) <= c * (u * Rabs (B2R x))) by (apply Rmult_le_compat_r; lra).
  apply (sg_A 1) in C; [|left; reflexivity|exact B5|lra]. rewrite Rmult_1_l in C. destruct C as [F D]. set (m := mul N (lit N 1 0) (app4 N x)) in *.
  assert (Bm : Rabs (B2R m) <= 10). { replace (B2R m) with ((B2R m - ReLi 4 (B2R x)) + ReLi 4 (B2R x)) by ring. eapply Rle_trans; [apply Rabs_triang|]. lra. }
  destruct (add_r 53 1024 Hp53 He53 ltac:(lia) ltac:(lia) ltac:(lia) L (lit N 0 0) m F0 F) as [P Q]. { rewrite W0, Rplus_0_l. lra. }
  split; [exact P|]. change (add N (lit N 0 0) m) with (add NN (lit N 0 0) m). rewrite Q, W0, Rplus_0_l. rewrite (rnd_B 53 1024 m).
  eapply Rle_trans; [exact D|]. apply (bound4_of c _ _ (Rabs (B2R x)) ltac:(lra)); [split; [lra|]|lra]. eapply Rle_trans; [|apply sizen_min]. apply Rmin_glb; lra.
Qed.
Lemma Li4_unf (N0 : num) (x : N0) : Li4_d N0 x =
  if ltb N0 x (lit N0 (-1) 0) then
    add N0 (add N0 (mul N0 (div N0 (lit N0 (-7) 0) (lit N0 4 0)) (lit N0 10823232337111382 (-16))) (mul N0 (mul N0 (nlog N0 (opp N0 x)) (nlog N0 (opp N0 x))) (sub N0 (mul N0 (lit N0 (-5) (-1)) (lit N0 16449340668482264 (-16))) (mul N0 (div N0 (lit N0 1 0) (lit N0 24 0)) (mul N0 (nlog N0 (opp N0 x)) (nlog N0 (opp N0 x)))))))
      (mul N0 (lit N0 (-1) 0) (app4 N0 (div N0 (lit N0 1 0) x)))
  else if eqb N0 x (lit N0 (-1) 0) then mul N0 (div N0 (lit N0 (-7) 0) (lit N0 8 0)) (lit N0 10823232337111382 (-16))
  else if eqb N0 x (lit N0 0 0) then x
  else if ltb N0 x (lit N0 1 0) then add N0 (lit N0 0 0) (mul N0 (lit N0 1 0) (app4 N0 x))
  else if eqb N0 x (lit N0 1 0) then lit N0 10823232337111382 (-16)
  else add N0 (add N0 (mul N0 (lit N0 2 0) (lit N0 10823232337111382 (-16))) (mul N0 (mul N0 (nlog N0 x) (nlog N0 x)) (sub N0 (lit N0 16449340668482264 (-16)) (mul N0 (div N0 (lit N0 1 0) (lit N0 24 0)) (mul N0 (nlog N0 x) (nlog N0 x))))))
      (mul N0 (lit N0 (-1) 0) (app4 N0 (div N0 (lit N0 1 0) x))).
Proof. reflexivity. Qed.
Theorem Li4_acc (x : fl) c : is_finite x = true -> 3000 <= c \/ (300 <= c /\ (B2R x < / 2 \/ 4 / 5 < B2R x <= 6 / 5 \/ 3 <= B2R x)) -> A (Li4_d N x) (ReLi 4 (B2R x)) (bound4 c (B2R x)).
Proof.
  intros Fx Hc. destruct ctx as (U & T & V0 & V4 & VH & BG).
  destruct (int_v L 1 ltac:(lia)) as [F1 V1]. destruct (int_v L (-1) ltac:(lia)) as [Fm Vm]. destruct (int_v L 0 ltac:(lia)) as [F0 W0].
  assert (c0 : 300 <= c) by (destruct Hc as [Hc|[Hc _]]; lra).
  assert (B1 : forall X, 1 <= Rabs X -> 10 * u <= bound4 c X). { intros X HX. apply (bound4_of c X _ 1); [lra| |assert (300 * u <= c * u) by (apply Rmult_le_compat_r; lra); lra]. split; [lra|]. eapply Rle_trans; [|apply sizen_min]. apply Rmin_glb; lra. }
  assert (S0 : forall X, 0 <= sizen 4 X). { intros X. eapply Rle_trans; [|apply sizen_min]. apply Rmin_glb; [lra|apply Rabs_pos]. }
  rewrite (Li4_unf N). pose proof (Bltb_R 53 1024 Hp53 He53 L) as BL. pose proof (Beqb_R 53 1024 Hp53 He53 L) as BE. change NN with N in BL, BE.
  rewrite (BL x (lit N (-1) 0)), Vm by assumption. case Rlt_bool_spec; intros C1.
  { eapply A_weak; [exact (neg4 x Fx C1)|]. unfold bound4. assert (300 * (u * sizen 4 (B2R x)) <= c * (u * sizen 4 (B2R x))) by (apply Rmult_le_compat_r; [apply Rmult_le_pos; [lra|apply S0]|lra]). lra. }
  rewrite (BE x (lit N (-1) 0)), Vm by assumption. case Req_bool_spec; intros C2.
  { rewrite C2. pose proof (E_quot L (-7) 8 ltac:(lia) ltac:(lia)) as E7. replace (Rabs (-7)) with 7 in E7 by (rewrite Rabs_left; lra).
    pose proof (E_mul L _ _ _ _ _ _ _ _ E7 (E_z4 L) ltac:(lra) ltac:(lra)) as E1. apply A_E in E1. rewrite Li4_m1. replace (- (7 * ReLi 4 1 / 8)) with (-7 / 8 * ReLi 4 1) by field. eapply A_weak; [exact E1|]. eapply Rle_trans; [|apply B1; rewrite Rabs_left; lra]. lra. }
  rewrite (BE x (lit N 0 0)), W0 by assumption. case Req_bool_spec; intros C4.
  { rewrite C4, (ReLi_0 4) by lia. split; [exact Fx|]. rewrite C4, Rminus_eq_0, Rabs_R0. apply (bound4_of c 0 _ 0); [lra| |lra]. split; [lra|apply S0]. }
  rewrite (BL x (lit N 1 0)), V1 by assumption. case Rlt_bool_spec; intros C7.
  { apply (in4 x c Fx); [lra|]. destruct Hc as [Hc|[Hc [Hr|[Hr|Hr]]]]; [left; exact Hc|right; split; [exact Hc|left; exact Hr]|right; split; [exact Hc|right; lra]|lra]. }
  rewrite (BE x (lit N 1 0)), V1 by assumption. case Req_bool_spec; intros C8.
  { rewrite C8. pose proof (A_E _ _ _ _ (E_z4 L)) as Az. eapply A_weak; [exact Az|]. eapply Rle_trans; [|apply B1; rewrite Rabs_R1; lra]. lra. }
  apply (pos4 x c Fx); [lra|]. destruct Hc as [Hc|[Hc [Hr|[Hr|Hr]]]]; [left; exact Hc|lra|right; split; [exact Hc|left; lra]|right; split; [exact Hc|right; lra]].
Qed.
End C.
