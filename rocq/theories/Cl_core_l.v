(** * Cl2 .. Cl6 in IEEE arithmetic, x87 long double: every core is finite and accurate on (0, PI]

    Generated by tools/gen_cl_core.py. *)
From Coq Require Import ZArith Reals Bool Lia Lra Psatz List.
From Coquelicot Require Import Rcomplements.
From Interval Require Import Tactic.
From Flocq Require Import Core Relative IEEE754.BinarySingleNaN.
From Verif Require Import Num NumR Eval_R NumB NumB_facts Proof_Float Libm Polylog Clausen Clausen_vals Proof_Cl Cl_full Cl_shape Cl_branch Model_Cl16 Ferr FerrB Fmod Cl_ieee Cl_pieces.
Import ListNotations.
Local Open Scope R_scope.

Section C.
Variable L : libm 64 16384.
Hypothesis HL : libm_ok (Hp := Hp64) (He := He64) L.
Notation N := (B80 L).
Lemma pi_val_l : is_finite (PIl N) = true /\ B2R (PIl N) = IZR 14488038916154245685 / IZR (2 ^ 62).
Proof.
  assert (E : B2SF (blit 64 16384 Hp64 He64 314159265358979323846264338327950288 (-35)) = SpecFloat.S754_finite false 14488038916154245685 (-62)) by (vm_compute; reflexivity).
  change (PIl N) with (blit 64 16384 Hp64 He64 314159265358979323846264338327950288 (-35)). split; [rewrite <- is_finite_SF_B2SF, E; reflexivity|]. rewrite <- SF2R_B2SF, E. cbn [SF2R cond_Zopp]. unfold F2R. cbn [Fnum Fexp].
  rewrite bpow_neg. reflexivity.
Qed.
Lemma p1_val_l : is_finite (p1l N) = true /\ B2R (p1l N) = IZR 18278459517872327756 / IZR (2 ^ 73).
Proof.
  assert (E : B2SF (blit 64 16384 Hp64 He64 19353071795864769252867665590057683943 (-40)) = SpecFloat.S754_finite false 18278459517872327756 (-73)) by (vm_compute; reflexivity).
  change (p1l N) with (blit 64 16384 Hp64 He64 19353071795864769252867665590057683943 (-40)). split; [rewrite <- is_finite_SF_B2SF, E; reflexivity|]. rewrite <- SF2R_B2SF, E. cbn [SF2R cond_Zopp]. unfold F2R. cbn [Fnum Fexp].
  rewrite bpow_neg. reflexivity.
Qed.
Lemma twopi_val_l : is_finite (mul N (lit N 2 0) (PIl N)) = true /\ B2R (mul N (lit N 2 0) (PIl N)) = IZR 14488038916154245685 / IZR (2 ^ 61).
Proof.
  assert (E : B2SF (Bmult mode_NE (blit 64 16384 Hp64 He64 2 0) (blit 64 16384 Hp64 He64 314159265358979323846264338327950288 (-35))) = SpecFloat.S754_finite false 14488038916154245685 (-61)) by (vm_compute; reflexivity).
  change (mul N (lit N 2 0) (PIl N)) with (Bmult mode_NE (blit 64 16384 Hp64 He64 2 0) (blit 64 16384 Hp64 He64 314159265358979323846264338327950288 (-35))).
  split; [rewrite <- is_finite_SF_B2SF, E; reflexivity|]. rewrite <- SF2R_B2SF, E. cbn [SF2R cond_Zopp]. unfold F2R. cbn [Fnum Fexp].
  rewrite bpow_neg. reflexivity.
Qed.
Lemma p0_val_l : is_finite (lit N 628125 (-5)) = true /\ B2R (lit N 628125 (-5)) = 201 / 32.
Proof.
  assert (E : B2SF (blit 64 16384 Hp64 He64 628125 (-5)) = SpecFloat.S754_finite false 14483576401623515136 (- 61)) by (vm_compute; reflexivity).
  change (lit N 628125 (-5)) with (blit 64 16384 Hp64 He64 628125 (-5)). split; [rewrite <- is_finite_SF_B2SF, E; reflexivity|]. rewrite <- SF2R_B2SF, E. cbn [SF2R cond_Zopp]. unfold F2R. cbn [Fnum Fexp].
  rewrite bpow_neg. change (2 ^ 61)%Z with 2305843009213693952%Z. lra.
Qed.
Lemma w_l : bpow radix2 (2 - 64) = / IZR 4611686018427387904.
Proof. change (2 - 64)%Z with (Zneg 62). rewrite bpow_neg. reflexivity. Qed.
Lemma consts_l : consts_ok 64 16384 (PIl N) (mul N (lit N 2 0) (PIl N)) (lit N 628125 (-5)) (p1l N).
Proof.
  destruct pi_val_l as [A1 A2], p1_val_l as [B1 B2], twopi_val_l as [C1 C2], p0_val_l as [D1 D2]. constructor.
  - repeat split; assumption.
  - rewrite C2, A2. change (2 ^ 62)%Z with 4611686018427387904%Z. change (2 ^ 61)%Z with 2305843009213693952%Z. lra.
  - exact D2.
  - rewrite A2. change (2 ^ 62)%Z with 4611686018427387904%Z. lra.
  - exists 14488038916154245685%Z. rewrite A2, w_l. change (2 ^ 62)%Z with 4611686018427387904%Z. lra.
  - rewrite A2, B2, w_l. change (2 ^ 62)%Z with 4611686018427387904%Z. change (2 ^ 73)%Z with 9444732965739290427392%Z. lra.
  - rewrite A2, B2, w_l. change (2 ^ 62)%Z with 4611686018427387904%Z. change (2 ^ 73)%Z with 9444732965739290427392%Z. lra.
  - rewrite B2. change (2 ^ 73)%Z with 9444732965739290427392%Z. lra.
Qed.
Lemma em_l : (128 <= 16384)%Z /\ (142 <= 16384 + 64)%Z /\ (1 < 64)%Z /\ (16384 + 64 <= 16600)%Z. Proof. lia. Qed.
Lemma PIH_bnd_l : is_finite (PIHl N) = true /\ 1570796 / 1000000 <= B2R (PIHl N) <= 15707999 / 10000000.
Proof.
  destruct em_l as (E1 & E2 & E3 & E4).
  assert (C : check 64 (PIHl NumE) [[]] (2 ^ 110) = true) by (vm_compute; reflexivity).
  destruct (const_check 64 16384 Hp64 He64 E3 E1 E2 L (PIHl NumE) (2 ^ 110) 0 (Pl / 2) C) as [F G].
  - change (evalN (NumR 0) (fun _ : nat => Some 0) (PIHl NumE)) with (div (NumR 0) (PIl (NumR 0)) (lit (NumR 0) 2 0)). rewrite PIl_R. cbn [NumR div lit]. rewrite litR_int, odiv_some by lra. reflexivity.
  - change (evalN (NumB 64 16384 Hp64 He64 L) (fun _ : nat => B754_zero false) (PIHl NumE)) with (PIHl N) in F, G. split; [exact F|]. apply Rabs_le_between in G. unfold Pl in G.
    assert (S : IZR (2 ^ 110) / sc = / 2 ^ 30) by (unfold sc; change (2 ^ 110)%Z with 1298074214633706907132624082305024%Z; change SH with 1393796574908163946345982392040522594123776%Z; lra). rewrite S in G. lra.
Qed.
Lemma ck2lN : check 64 Cl2_l_nx (pN 64) (9 * 2 ^ 76) = true.
Proof. vm_compute. reflexivity. Qed.
Lemma ck2lF : check 64 Cl2_l_fx (grid 1727108466399 25000000000 16 ++ grid (1727108466399 + 25000000000 * Z.of_nat 16) 82950000000 16) (192 * 2 ^ 76) = true.
Proof. vm_compute. reflexivity. Qed.
Definition e2l : R := 1 / 10 ^ 35 + 192 / 2 ^ 64.
Lemma core2l_ieee (x : car N) : is_finite x = true -> 0 < B2R x <= B2R (PIl N) ->
  is_finite (Cl2_l_core N x) = true /\ Rabs (B2R (Cl2_l_core N x) - Clspec 2 (B2R x)) <= e2l.
Proof.
  intros Fx Hx. destruct em_l as (E1 & E2 & E3 & E4). destruct PIH_bnd_l as [PF PB]. destruct pi_val_l as [_ PV]. change (2 ^ 62)%Z with 4611686018427387904%Z in PV.
  rewrite Cl2_l_split. change (ltb N x (PIHl N)) with (Bltb x (PIHl N)). rewrite (Bltb_correct _ _ x _ Fx PF). destruct (Rlt_bool_spec (B2R x) (B2R (PIHl N))) as [Q|Q].
  - assert (Hx' : 0 < B2R x <= 15707999 / 10000000) by lra. destruct (near2l 0 (B2R x) ltac:(lra)) as (v & V1 & V2).
    destruct (near_check 64 16384 Hp64 He64 E3 E1 E2 E4 L HL Cl2_l_nx (9 * 2 ^ 76) 0 v x ck2lN Fx Hx' V1) as [F G].
    change (NumB 64 16384 Hp64 He64 L) with N in F, G. rewrite (Cl2_l_nx_ok N) in F, G. cbn [nth] in F, G. set (w := Cl2_l_near N x (nlog N x)) in F, G |- *. clearbody w. split; [exact F|].
    assert (S : IZR (9 * 2 ^ 76) / sc = 9 / 2 ^ 64) by (unfold sc; change (9 * 2 ^ 76)%Z with 680020773533228910772224%Z; change SH with 1393796574908163946345982392040522594123776%Z; lra). rewrite S in G.
    apply (tri_le _ v _ _ _ _ G V2). unfold e2l. lra.
  - assert (Hx' : 1570796 / 1000000 <= B2R x <= 31416 / 10000) by lra. destruct (far2l 0 (B2R x) Hx') as (v & V1 & V2).
    destruct (far_check 64 16384 Hp64 He64 E3 E1 E2 L Cl2_l_fx (192 * 2 ^ 76) 0 v x 1727108466399 25000000000 16 82950000000 16 ck2lF) as [F G]; [lia|lia|lia|lia|exact Fx| |exact V1|].
    { unfold s40. change (2 ^ 40)%Z with 1099511627776%Z. change (1727108466399 + 25000000000 * Z.of_nat 16 + 82950000000 * Z.of_nat 16)%Z with 3454308466399%Z. lra. }
    change (NumB 64 16384 Hp64 He64 L) with N in F, G. rewrite (Cl2_l_fx_ok N) in F, G. cbn [nth] in F, G. set (w := Cl2_l_far N x) in F, G |- *. clearbody w. split; [exact F|].
    assert (S : IZR (192 * 2 ^ 76) / sc = 192 / 2 ^ 64) by (unfold sc; change (192 * 2 ^ 76)%Z with 14507109835375550096474112%Z; change SH with 1393796574908163946345982392040522594123776%Z; lra). rewrite S in G.
    apply (tri_le _ v _ _ _ _ G V2). unfold e2l. lra.
Qed.
Lemma ck3lN : check 64 Cl3_l_nx (pN 64) (36 * 2 ^ 76) = true.
Proof. vm_compute. reflexivity. Qed.
Lemma ck3lF : check 64 Cl3_l_fx (grid 1727108466399 1562500000 256 ++ grid (1727108466399 + 1562500000 * Z.of_nat 256) 20737500000 64) (12000 * 2 ^ 76) = true.
Proof. vm_compute. reflexivity. Qed.
Definition e3l : R := 7 / 10 ^ 26 + 12000 / 2 ^ 64.
Lemma core3l_ieee (x : car N) : is_finite x = true -> 0 < B2R x <= B2R (PIl N) ->
  is_finite (Cl3_l_core N x) = true /\ Rabs (B2R (Cl3_l_core N x) - Clspec 3 (B2R x)) <= e3l.
Proof.
  intros Fx Hx. destruct em_l as (E1 & E2 & E3 & E4). destruct PIH_bnd_l as [PF PB]. destruct pi_val_l as [_ PV]. change (2 ^ 62)%Z with 4611686018427387904%Z in PV.
  rewrite Cl3_l_split. change (ltb N x (PIHl N)) with (Bltb x (PIHl N)). rewrite (Bltb_correct _ _ x _ Fx PF). destruct (Rlt_bool_spec (B2R x) (B2R (PIHl N))) as [Q|Q].
  - assert (Hx' : 0 < B2R x <= 15707999 / 10000000) by lra. destruct (near3l 0 (B2R x) ltac:(lra)) as (v & V1 & V2).
    destruct (near_check 64 16384 Hp64 He64 E3 E1 E2 E4 L HL Cl3_l_nx (36 * 2 ^ 76) 0 v x ck3lN Fx Hx' V1) as [F G].
    change (NumB 64 16384 Hp64 He64 L) with N in F, G. rewrite (Cl3_l_nx_ok N) in F, G. cbn [nth] in F, G. set (w := Cl3_l_near N x (nlog N x)) in F, G |- *. clearbody w. split; [exact F|].
    assert (S : IZR (36 * 2 ^ 76) / sc = 36 / 2 ^ 64) by (unfold sc; change (36 * 2 ^ 76)%Z with 2720083094132915643088896%Z; change SH with 1393796574908163946345982392040522594123776%Z; lra). rewrite S in G.
    apply (tri_le _ v _ _ _ _ G V2). unfold e3l. lra.
  - assert (Hx' : 1570796 / 1000000 <= B2R x <= 31416 / 10000) by lra. destruct (far3l 0 (B2R x) Hx') as (v & V1 & V2).
    destruct (far_check 64 16384 Hp64 He64 E3 E1 E2 L Cl3_l_fx (12000 * 2 ^ 76) 0 v x 1727108466399 1562500000 256 20737500000 64 ck3lF) as [F G]; [lia|lia|lia|lia|exact Fx| |exact V1|].
    { unfold s40. change (2 ^ 40)%Z with 1099511627776%Z. change (1727108466399 + 1562500000 * Z.of_nat 256 + 20737500000 * Z.of_nat 64)%Z with 3454308466399%Z. lra. }
    change (NumB 64 16384 Hp64 He64 L) with N in F, G. rewrite (Cl3_l_fx_ok N) in F, G. cbn [nth] in F, G. set (w := Cl3_l_far N x) in F, G |- *. clearbody w. split; [exact F|].
    assert (S : IZR (12000 * 2 ^ 76) / sc = 12000 / 2 ^ 64) by (unfold sc; change (12000 * 2 ^ 76)%Z with 906694364710971881029632000%Z; change SH with 1393796574908163946345982392040522594123776%Z; lra). rewrite S in G.
    apply (tri_le _ v _ _ _ _ G V2). unfold e3l. lra.
Qed.
Lemma ck4lN : check 64 Cl4_l_nx (pN 64) (27 * 2 ^ 76) = true.
Proof. vm_compute. reflexivity. Qed.
Lemma ck4lF : check 64 Cl4_l_fx (grid 1727108466399 25000000000 16 ++ grid (1727108466399 + 25000000000 * Z.of_nat 16) 82950000000 16) (3600 * 2 ^ 76) = true.
Proof. vm_compute. reflexivity. Qed.
Definition e4l : R := 1 / 10 ^ 25 + 3600 / 2 ^ 64.
Lemma core4l_ieee (x : car N) : is_finite x = true -> 0 < B2R x <= B2R (PIl N) ->
  is_finite (Cl4_l_core N x) = true /\ Rabs (B2R (Cl4_l_core N x) - Clspec 4 (B2R x)) <= e4l.
Proof.
  intros Fx Hx. destruct em_l as (E1 & E2 & E3 & E4). destruct PIH_bnd_l as [PF PB]. destruct pi_val_l as [_ PV]. change (2 ^ 62)%Z with 4611686018427387904%Z in PV.
  rewrite Cl4_l_split. change (ltb N x (PIHl N)) with (Bltb x (PIHl N)). rewrite (Bltb_correct _ _ x _ Fx PF). destruct (Rlt_bool_spec (B2R x) (B2R (PIHl N))) as [Q|Q].
  - assert (Hx' : 0 < B2R x <= 15707999 / 10000000) by lra. destruct (near4l 0 (B2R x) ltac:(lra)) as (v & V1 & V2).
    destruct (near_check 64 16384 Hp64 He64 E3 E1 E2 E4 L HL Cl4_l_nx (27 * 2 ^ 76) 0 v x ck4lN Fx Hx' V1) as [F G].
    change (NumB 64 16384 Hp64 He64 L) with N in F, G. rewrite (Cl4_l_nx_ok N) in F, G. cbn [nth] in F, G. set (w := Cl4_l_near N x (nlog N x)) in F, G |- *. clearbody w. split; [exact F|].
    assert (S : IZR (27 * 2 ^ 76) / sc = 27 / 2 ^ 64) by (unfold sc; change (27 * 2 ^ 76)%Z with 2040062320599686732316672%Z; change SH with 1393796574908163946345982392040522594123776%Z; lra). rewrite S in G.
    apply (tri_le _ v _ _ _ _ G V2). unfold e4l. lra.
  - assert (Hx' : 1570796 / 1000000 <= B2R x <= 31416 / 10000) by lra. destruct (far4l 0 (B2R x) Hx') as (v & V1 & V2).
    destruct (far_check 64 16384 Hp64 He64 E3 E1 E2 L Cl4_l_fx (3600 * 2 ^ 76) 0 v x 1727108466399 25000000000 16 82950000000 16 ck4lF) as [F G]; [lia|lia|lia|lia|exact Fx| |exact V1|].
    { unfold s40. change (2 ^ 40)%Z with 1099511627776%Z. change (1727108466399 + 25000000000 * Z.of_nat 16 + 82950000000 * Z.of_nat 16)%Z with 3454308466399%Z. lra. }
    change (NumB 64 16384 Hp64 He64 L) with N in F, G. rewrite (Cl4_l_fx_ok N) in F, G. cbn [nth] in F, G. set (w := Cl4_l_far N x) in F, G |- *. clearbody w. split; [exact F|].
    assert (S : IZR (3600 * 2 ^ 76) / sc = 3600 / 2 ^ 64) by (unfold sc; change (3600 * 2 ^ 76)%Z with 272008309413291564308889600%Z; change SH with 1393796574908163946345982392040522594123776%Z; lra). rewrite S in G.
    apply (tri_le _ v _ _ _ _ G V2). unfold e4l. lra.
Qed.
Lemma ck5lN : check 64 Cl5_l_nx (pN 64) (20 * 2 ^ 76) = true.
Proof. vm_compute. reflexivity. Qed.
Lemma ck5lF : check 64 Cl5_l_fx (grid 1727108466399 1562500000 256 ++ grid (1727108466399 + 1562500000 * Z.of_nat 256) 20737500000 64) (16000 * 2 ^ 76) = true.
Proof. vm_compute. reflexivity. Qed.
Definition e5l : R := 7 / 10 ^ 26 + 16000 / 2 ^ 64.
Lemma core5l_ieee (x : car N) : is_finite x = true -> 0 < B2R x <= B2R (PIl N) ->
  is_finite (Cl5_l_core N x) = true /\ Rabs (B2R (Cl5_l_core N x) - Clspec 5 (B2R x)) <= e5l.
Proof.
  intros Fx Hx. destruct em_l as (E1 & E2 & E3 & E4). destruct PIH_bnd_l as [PF PB]. destruct pi_val_l as [_ PV]. change (2 ^ 62)%Z with 4611686018427387904%Z in PV.
  rewrite Cl5_l_split. change (ltb N x (PIHl N)) with (Bltb x (PIHl N)). rewrite (Bltb_correct _ _ x _ Fx PF). destruct (Rlt_bool_spec (B2R x) (B2R (PIHl N))) as [Q|Q].
  - assert (Hx' : 0 < B2R x <= 15707999 / 10000000) by lra. destruct (near5l 0 (B2R x) ltac:(lra)) as (v & V1 & V2).
    destruct (near_check 64 16384 Hp64 He64 E3 E1 E2 E4 L HL Cl5_l_nx (20 * 2 ^ 76) 0 v x ck5lN Fx Hx' V1) as [F G].
    change (NumB 64 16384 Hp64 He64 L) with N in F, G. rewrite (Cl5_l_nx_ok N) in F, G. cbn [nth] in F, G. set (w := Cl5_l_near N x (nlog N x)) in F, G |- *. clearbody w. split; [exact F|].
    assert (S : IZR (20 * 2 ^ 76) / sc = 20 / 2 ^ 64) by (unfold sc; change (20 * 2 ^ 76)%Z with 1511157274518286468382720%Z; change SH with 1393796574908163946345982392040522594123776%Z; lra). rewrite S in G.
    apply (tri_le _ v _ _ _ _ G V2). unfold e5l. lra.
  - assert (Hx' : 1570796 / 1000000 <= B2R x <= 31416 / 10000) by lra. destruct (far5l 0 (B2R x) Hx') as (v & V1 & V2).
    destruct (far_check 64 16384 Hp64 He64 E3 E1 E2 L Cl5_l_fx (16000 * 2 ^ 76) 0 v x 1727108466399 1562500000 256 20737500000 64 ck5lF) as [F G]; [lia|lia|lia|lia|exact Fx| |exact V1|].
    { unfold s40. change (2 ^ 40)%Z with 1099511627776%Z. change (1727108466399 + 1562500000 * Z.of_nat 256 + 20737500000 * Z.of_nat 64)%Z with 3454308466399%Z. lra. }
    change (NumB 64 16384 Hp64 He64 L) with N in F, G. rewrite (Cl5_l_fx_ok N) in F, G. cbn [nth] in F, G. set (w := Cl5_l_far N x) in F, G |- *. clearbody w. split; [exact F|].
    assert (S : IZR (16000 * 2 ^ 76) / sc = 16000 / 2 ^ 64) by (unfold sc; change (16000 * 2 ^ 76)%Z with 1208925819614629174706176000%Z; change SH with 1393796574908163946345982392040522594123776%Z; lra). rewrite S in G.
    apply (tri_le _ v _ _ _ _ G V2). unfold e5l. lra.
Qed.
Lemma ck6lN : check 64 Cl6_l_nx (pN 64) (23 * 2 ^ 76) = true.
Proof. vm_compute. reflexivity. Qed.
Lemma ck6lF : check 64 Cl6_l_fx (grid 1727108466399 1562500000 256 ++ grid (1727108466399 + 1562500000 * Z.of_nat 256) 20737500000 64) (71000 * 2 ^ 76) = true.
Proof. vm_compute. reflexivity. Qed.
Definition e6l : R := 1 / 10 ^ 25 + 71000 / 2 ^ 64.
Lemma core6l_ieee (x : car N) : is_finite x = true -> 0 < B2R x <= B2R (PIl N) ->
  is_finite (Cl6_l_core N x) = true /\ Rabs (B2R (Cl6_l_core N x) - Clspec 6 (B2R x)) <= e6l.
Proof.
  intros Fx Hx. destruct em_l as (E1 & E2 & E3 & E4). destruct PIH_bnd_l as [PF PB]. destruct pi_val_l as [_ PV]. change (2 ^ 62)%Z with 4611686018427387904%Z in PV.
  rewrite Cl6_l_split. change (ltb N x (PIHl N)) with (Bltb x (PIHl N)). rewrite (Bltb_correct _ _ x _ Fx PF). destruct (Rlt_bool_spec (B2R x) (B2R (PIHl N))) as [Q|Q].
  - assert (Hx' : 0 < B2R x <= 15707999 / 10000000) by lra. destruct (near6l 0 (B2R x) ltac:(lra)) as (v & V1 & V2).
    destruct (near_check 64 16384 Hp64 He64 E3 E1 E2 E4 L HL Cl6_l_nx (23 * 2 ^ 76) 0 v x ck6lN Fx Hx' V1) as [F G].
    change (NumB 64 16384 Hp64 He64 L) with N in F, G. rewrite (Cl6_l_nx_ok N) in F, G. cbn [nth] in F, G. set (w := Cl6_l_near N x (nlog N x)) in F, G |- *. clearbody w. split; [exact F|].
    assert (S : IZR (23 * 2 ^ 76) / sc = 23 / 2 ^ 64) by (unfold sc; change (23 * 2 ^ 76)%Z with 1737830865696029438640128%Z; change SH with 1393796574908163946345982392040522594123776%Z; lra). rewrite S in G.
    apply (tri_le _ v _ _ _ _ G V2). unfold e6l. lra.
  - assert (Hx' : 1570796 / 1000000 <= B2R x <= 31416 / 10000) by lra. destruct (far6l 0 (B2R x) Hx') as (v & V1 & V2).
    destruct (far_check 64 16384 Hp64 He64 E3 E1 E2 L Cl6_l_fx (71000 * 2 ^ 76) 0 v x 1727108466399 1562500000 256 20737500000 64 ck6lF) as [F G]; [lia|lia|lia|lia|exact Fx| |exact V1|].
    { unfold s40. change (2 ^ 40)%Z with 1099511627776%Z. change (1727108466399 + 1562500000 * Z.of_nat 256 + 20737500000 * Z.of_nat 64)%Z with 3454308466399%Z. lra. }
    change (NumB 64 16384 Hp64 He64 L) with N in F, G. rewrite (Cl6_l_fx_ok N) in F, G. cbn [nth] in F, G. set (w := Cl6_l_far N x) in F, G |- *. clearbody w. split; [exact F|].
    assert (S : IZR (71000 * 2 ^ 76) / sc = 71000 / 2 ^ 64) by (unfold sc; change (71000 * 2 ^ 76)%Z with 5364608324539916962758656000%Z; change SH with 1393796574908163946345982392040522594123776%Z; lra). rewrite S in G.
    apply (tri_le _ v _ _ _ _ G V2). unfold e6l. lra.
Qed.
End C.
