(** * Cl2 .. Cl6 in IEEE arithmetic, double: every core is finite and accurate on (0, PI]

    Generated by tools/gen_cl_core.py. *)
From Coq Require Import ZArith Reals Bool Lia Lra Psatz List.
From Coquelicot Require Import Rcomplements.
From Interval Require Import Tactic.
From Flocq Require Import Core Relative IEEE754.BinarySingleNaN.
From Verif Require Import Num NumR Eval_R NumB NumB_facts Proof_Float Libm Polylog Clausen Clausen_vals Proof_Cl Cl_full Cl_shape Cl_branch Model_Cl16 Ferr FerrB Fmod Cl_ieee Cl_pieces.
Import ListNotations.
Local Open Scope R_scope.

Section C.
Variable L : libm 53 1024.
Hypothesis HL : libm_ok (Hp := Hp53) (He := He53) L.
Notation N := (B64 L).
Lemma pi_val_d : is_finite (PId N) = true /\ B2R (PId N) = IZR 7074237752028440 / IZR (2 ^ 51).
Proof.
  assert (E : B2SF (blit 53 1024 Hp53 He53 314159265358979324 (-17)) = SpecFloat.S754_finite false 7074237752028440 (-51)) by (vm_compute; reflexivity).
  change (PId N) with (blit 53 1024 Hp53 He53 314159265358979324 (-17)). split; [rewrite <- is_finite_SF_B2SF, E; reflexivity|]. rewrite <- SF2R_B2SF, E. cbn [SF2R cond_Zopp]. unfold F2R. cbn [Fnum Fexp].
  rewrite bpow_neg. reflexivity.
Qed.
Lemma p1_val_d : is_finite (p1d N) = true /\ B2R (p1d N) = IZR 8925029061461098 / IZR (2 ^ 62).
Proof.
  assert (E : B2SF (blit 53 1024 Hp53 He53 19353071795864769253 (-22)) = SpecFloat.S754_finite false 8925029061461098 (-62)) by (vm_compute; reflexivity).
  change (p1d N) with (blit 53 1024 Hp53 He53 19353071795864769253 (-22)). split; [rewrite <- is_finite_SF_B2SF, E; reflexivity|]. rewrite <- SF2R_B2SF, E. cbn [SF2R cond_Zopp]. unfold F2R. cbn [Fnum Fexp].
  rewrite bpow_neg. reflexivity.
Qed.
Lemma twopi_val_d : is_finite (mul N (lit N 2 0) (PId N)) = true /\ B2R (mul N (lit N 2 0) (PId N)) = IZR 7074237752028440 / IZR (2 ^ 50).
Proof.
  assert (E : B2SF (Bmult mode_NE (blit 53 1024 Hp53 He53 2 0) (blit 53 1024 Hp53 He53 314159265358979324 (-17))) = SpecFloat.S754_finite false 7074237752028440 (-50)) by (vm_compute; reflexivity).
  change (mul N (lit N 2 0) (PId N)) with (Bmult mode_NE (blit 53 1024 Hp53 He53 2 0) (blit 53 1024 Hp53 He53 314159265358979324 (-17))).
  split; [rewrite <- is_finite_SF_B2SF, E; reflexivity|]. rewrite <- SF2R_B2SF, E. cbn [SF2R cond_Zopp]. unfold F2R. cbn [Fnum Fexp].
  rewrite bpow_neg. reflexivity.
Qed.
Lemma p0_val_d : is_finite (lit N 628125 (-5)) = true /\ B2R (lit N 628125 (-5)) = 201 / 32.
Proof.
  assert (E : B2SF (blit 53 1024 Hp53 He53 628125 (-5)) = SpecFloat.S754_finite false 7072058789855232 (- 50)) by (vm_compute; reflexivity).
  change (lit N 628125 (-5)) with (blit 53 1024 Hp53 He53 628125 (-5)). split; [rewrite <- is_finite_SF_B2SF, E; reflexivity|]. rewrite <- SF2R_B2SF, E. cbn [SF2R cond_Zopp]. unfold F2R. cbn [Fnum Fexp].
  rewrite bpow_neg. change (2 ^ 50)%Z with 1125899906842624%Z. lra.
Qed.
Lemma w_d : bpow radix2 (2 - 53) = / IZR 2251799813685248.
Proof. change (2 - 53)%Z with (Zneg 51). rewrite bpow_neg. reflexivity. Qed.
Lemma consts_d : consts_ok 53 1024 (PId N) (mul N (lit N 2 0) (PId N)) (lit N 628125 (-5)) (p1d N).
Proof.
  destruct pi_val_d as [A1 A2], p1_val_d as [B1 B2], twopi_val_d as [C1 C2], p0_val_d as [D1 D2]. constructor.
  - repeat split; assumption.
  - rewrite C2, A2. change (2 ^ 51)%Z with 2251799813685248%Z. change (2 ^ 50)%Z with 1125899906842624%Z. lra.
  - exact D2.
  - rewrite A2. change (2 ^ 51)%Z with 2251799813685248%Z. lra.
  - exists 7074237752028440%Z. rewrite A2, w_d. change (2 ^ 51)%Z with 2251799813685248%Z. lra.
  - rewrite A2, B2, w_d. change (2 ^ 51)%Z with 2251799813685248%Z. change (2 ^ 62)%Z with 4611686018427387904%Z. lra.
  - rewrite A2, B2, w_d. change (2 ^ 51)%Z with 2251799813685248%Z. change (2 ^ 62)%Z with 4611686018427387904%Z. lra.
  - rewrite B2. change (2 ^ 62)%Z with 4611686018427387904%Z. lra.
Qed.
Lemma em_d : (128 <= 1024)%Z /\ (142 <= 1024 + 53)%Z /\ (1 < 53)%Z /\ (1024 + 53 <= 16600)%Z. Proof. lia. Qed.
Lemma PIH_bnd_d : is_finite (PIHd N) = true /\ 1570796 / 1000000 <= B2R (PIHd N) <= 15707999 / 10000000.
Proof.
  destruct em_d as (E1 & E2 & E3 & E4).
  assert (C : check 53 (PIHd NumE) [[]] (2 ^ 110) = true) by (vm_compute; reflexivity).
  destruct (const_check 53 1024 Hp53 He53 E3 E1 E2 L (PIHd NumE) (2 ^ 110) 0 (Pd / 2) C) as [F G].
  - change (evalN (NumR 0) (fun _ : nat => Some 0) (PIHd NumE)) with (div (NumR 0) (PId (NumR 0)) (lit (NumR 0) 2 0)). rewrite PId_R. cbn [NumR div lit]. rewrite litR_int, odiv_some by lra. reflexivity.
  - change (evalN (NumB 53 1024 Hp53 He53 L) (fun _ : nat => B754_zero false) (PIHd NumE)) with (PIHd N) in F, G. split; [exact F|]. apply Rabs_le_between in G. unfold Pd in G.
    assert (S : IZR (2 ^ 110) / sc = / 2 ^ 30) by (unfold sc; change (2 ^ 110)%Z with 1298074214633706907132624082305024%Z; change SH with 1393796574908163946345982392040522594123776%Z; lra). rewrite S in G. lra.
Qed.
Lemma ck2dN : check 53 Cl2_d_nx (pN 53) (9 * 2 ^ 87) = true.
Proof. vm_compute. reflexivity. Qed.
Lemma ck2dF : check 53 Cl2_d_fx (grid 1727108466399 25000000000 16 ++ grid (1727108466399 + 25000000000 * Z.of_nat 16) 82950000000 16) (41 * 2 ^ 87) = true.
Proof. vm_compute. reflexivity. Qed.
Definition e2d : R := 3 / 10 ^ 17 + 41 / 2 ^ 53.
Lemma core2d_ieee (x : car N) : is_finite x = true -> 0 < B2R x <= B2R (PId N) ->
  is_finite (Cl2_d_core N x) = true /\ Rabs (B2R (Cl2_d_core N x) - Clspec 2 (B2R x)) <= e2d.
Proof.
  intros Fx Hx. destruct em_d as (E1 & E2 & E3 & E4). destruct PIH_bnd_d as [PF PB]. destruct pi_val_d as [_ PV]. change (2 ^ 51)%Z with 2251799813685248%Z in PV.
  rewrite Cl2_d_split. change (ltb N x (PIHd N)) with (Bltb x (PIHd N)). rewrite (Bltb_correct _ _ x _ Fx PF). destruct (Rlt_bool_spec (B2R x) (B2R (PIHd N))) as [Q|Q].
  - assert (Hx' : 0 < B2R x <= 15707999 / 10000000) by lra. destruct (near2d 0 (B2R x) ltac:(lra)) as (v & V1 & V2).
    destruct (near_check 53 1024 Hp53 He53 E3 E1 E2 E4 L HL Cl2_d_nx (9 * 2 ^ 87) 0 v x ck2dN Fx Hx' V1) as [F G].
    change (NumB 53 1024 Hp53 He53 L) with N in F, G. rewrite (Cl2_d_nx_ok N) in F, G. cbn [nth] in F, G. set (w := Cl2_d_near N x (nlog N x)) in F, G |- *. clearbody w. split; [exact F|].
    assert (S : IZR (9 * 2 ^ 87) / sc = 9 / 2 ^ 53) by (unfold sc; change (9 * 2 ^ 87)%Z with 1392682544196052809261514752%Z; change SH with 1393796574908163946345982392040522594123776%Z; lra). rewrite S in G.
    apply (tri_le _ v _ _ _ _ G V2). unfold e2d. lra.
  - assert (Hx' : 1570796 / 1000000 <= B2R x <= 31416 / 10000) by lra. destruct (far2d 0 (B2R x) Hx') as (v & V1 & V2).
    destruct (far_check 53 1024 Hp53 He53 E3 E1 E2 L Cl2_d_fx (41 * 2 ^ 87) 0 v x 1727108466399 25000000000 16 82950000000 16 ck2dF) as [F G]; [lia|lia|lia|lia|exact Fx| |exact V1|].
    { unfold s40. change (2 ^ 40)%Z with 1099511627776%Z. change (1727108466399 + 25000000000 * Z.of_nat 16 + 82950000000 * Z.of_nat 16)%Z with 3454308466399%Z. lra. }
    change (NumB 53 1024 Hp53 He53 L) with N in F, G. rewrite (Cl2_d_fx_ok N) in F, G. cbn [nth] in F, G. set (w := Cl2_d_far N x) in F, G |- *. clearbody w. split; [exact F|].
    assert (S : IZR (41 * 2 ^ 87) / sc = 41 / 2 ^ 53) by (unfold sc; change (41 * 2 ^ 87)%Z with 6344442701337573908858011648%Z; change SH with 1393796574908163946345982392040522594123776%Z; lra). rewrite S in G.
    apply (tri_le _ v _ _ _ _ G V2). unfold e2d. lra.
Qed.
Lemma ck3dN : check 53 Cl3_d_nx (pN 53) (24 * 2 ^ 87) = true.
Proof. vm_compute. reflexivity. Qed.
Lemma ck3dF : check 53 Cl3_d_fx (grid 1727108466399 25000000000 16 ++ grid (1727108466399 + 25000000000 * Z.of_nat 16) 82950000000 16) (25 * 2 ^ 87) = true.
Proof. vm_compute. reflexivity. Qed.
Definition e3d : R := 1 / 10 ^ 16 + 25 / 2 ^ 53.
Lemma core3d_ieee (x : car N) : is_finite x = true -> 0 < B2R x <= B2R (PId N) ->
  is_finite (Cl3_d_core N x) = true /\ Rabs (B2R (Cl3_d_core N x) - Clspec 3 (B2R x)) <= e3d.
Proof.
  intros Fx Hx. destruct em_d as (E1 & E2 & E3 & E4). destruct PIH_bnd_d as [PF PB]. destruct pi_val_d as [_ PV]. change (2 ^ 51)%Z with 2251799813685248%Z in PV.
  rewrite Cl3_d_split. change (ltb N x (PIHd N)) with (Bltb x (PIHd N)). rewrite (Bltb_correct _ _ x _ Fx PF). destruct (Rlt_bool_spec (B2R x) (B2R (PIHd N))) as [Q|Q].
  - assert (Hx' : 0 < B2R x <= 15707999 / 10000000) by lra. destruct (near3d 0 (B2R x) ltac:(lra)) as (v & V1 & V2).
    destruct (near_check 53 1024 Hp53 He53 E3 E1 E2 E4 L HL Cl3_d_nx (24 * 2 ^ 87) 0 v x ck3dN Fx Hx' V1) as [F G].
    change (NumB 53 1024 Hp53 He53 L) with N in F, G. rewrite (Cl3_d_nx_ok N) in F, G. cbn [nth] in F, G. set (w := Cl3_d_near N x (nlog N x)) in F, G |- *. clearbody w. split; [exact F|].
    assert (S : IZR (24 * 2 ^ 87) / sc = 24 / 2 ^ 53) by (unfold sc; change (24 * 2 ^ 87)%Z with 3713820117856140824697372672%Z; change SH with 1393796574908163946345982392040522594123776%Z; lra). rewrite S in G.
    apply (tri_le _ v _ _ _ _ G V2). unfold e3d. lra.
  - assert (Hx' : 1570796 / 1000000 <= B2R x <= 31416 / 10000) by lra. destruct (far3d 0 (B2R x) Hx') as (v & V1 & V2).
    destruct (far_check 53 1024 Hp53 He53 E3 E1 E2 L Cl3_d_fx (25 * 2 ^ 87) 0 v x 1727108466399 25000000000 16 82950000000 16 ck3dF) as [F G]; [lia|lia|lia|lia|exact Fx| |exact V1|].
    { unfold s40. change (2 ^ 40)%Z with 1099511627776%Z. change (1727108466399 + 25000000000 * Z.of_nat 16 + 82950000000 * Z.of_nat 16)%Z with 3454308466399%Z. lra. }
    change (NumB 53 1024 Hp53 He53 L) with N in F, G. rewrite (Cl3_d_fx_ok N) in F, G. cbn [nth] in F, G. set (w := Cl3_d_far N x) in F, G |- *. clearbody w. split; [exact F|].
    assert (S : IZR (25 * 2 ^ 87) / sc = 25 / 2 ^ 53) by (unfold sc; change (25 * 2 ^ 87)%Z with 3868562622766813359059763200%Z; change SH with 1393796574908163946345982392040522594123776%Z; lra). rewrite S in G.
    apply (tri_le _ v _ _ _ _ G V2). unfold e3d. lra.
Qed.
Lemma ck4dN : check 53 Cl4_d_nx (pN 53) (19 * 2 ^ 87) = true.
Proof. vm_compute. reflexivity. Qed.
Lemma ck4dF : check 53 Cl4_d_fx (grid 1727108466399 25000000000 16 ++ grid (1727108466399 + 25000000000 * Z.of_nat 16) 82950000000 16) (38 * 2 ^ 87) = true.
Proof. vm_compute. reflexivity. Qed.
Definition e4d : R := 1 / 10 ^ 16 + 38 / 2 ^ 53.
Lemma core4d_ieee (x : car N) : is_finite x = true -> 0 < B2R x <= B2R (PId N) ->
  is_finite (Cl4_d_core N x) = true /\ Rabs (B2R (Cl4_d_core N x) - Clspec 4 (B2R x)) <= e4d.
Proof.
  intros Fx Hx. destruct em_d as (E1 & E2 & E3 & E4). destruct PIH_bnd_d as [PF PB]. destruct pi_val_d as [_ PV]. change (2 ^ 51)%Z with 2251799813685248%Z in PV.
  rewrite Cl4_d_split. change (ltb N x (PIHd N)) with (Bltb x (PIHd N)). rewrite (Bltb_correct _ _ x _ Fx PF). destruct (Rlt_bool_spec (B2R x) (B2R (PIHd N))) as [Q|Q].
  - assert (Hx' : 0 < B2R x <= 15707999 / 10000000) by lra. destruct (near4d 0 (B2R x) ltac:(lra)) as (v & V1 & V2).
    destruct (near_check 53 1024 Hp53 He53 E3 E1 E2 E4 L HL Cl4_d_nx (19 * 2 ^ 87) 0 v x ck4dN Fx Hx' V1) as [F G].
    change (NumB 53 1024 Hp53 He53 L) with N in F, G. rewrite (Cl4_d_nx_ok N) in F, G. cbn [nth] in F, G. set (w := Cl4_d_near N x (nlog N x)) in F, G |- *. clearbody w. split; [exact F|].
    assert (S : IZR (19 * 2 ^ 87) / sc = 19 / 2 ^ 53) by (unfold sc; change (19 * 2 ^ 87)%Z with 2940107593302778152885420032%Z; change SH with 1393796574908163946345982392040522594123776%Z; lra). rewrite S in G.
    apply (tri_le _ v _ _ _ _ G V2). unfold e4d. lra.
  - assert (Hx' : 1570796 / 1000000 <= B2R x <= 31416 / 10000) by lra. destruct (far4d 0 (B2R x) Hx') as (v & V1 & V2).
    destruct (far_check 53 1024 Hp53 He53 E3 E1 E2 L Cl4_d_fx (38 * 2 ^ 87) 0 v x 1727108466399 25000000000 16 82950000000 16 ck4dF) as [F G]; [lia|lia|lia|lia|exact Fx| |exact V1|].
    { unfold s40. change (2 ^ 40)%Z with 1099511627776%Z. change (1727108466399 + 25000000000 * Z.of_nat 16 + 82950000000 * Z.of_nat 16)%Z with 3454308466399%Z. lra. }
    change (NumB 53 1024 Hp53 He53 L) with N in F, G. rewrite (Cl4_d_fx_ok N) in F, G. cbn [nth] in F, G. set (w := Cl4_d_far N x) in F, G |- *. clearbody w. split; [exact F|].
    assert (S : IZR (38 * 2 ^ 87) / sc = 38 / 2 ^ 53) by (unfold sc; change (38 * 2 ^ 87)%Z with 5880215186605556305770840064%Z; change SH with 1393796574908163946345982392040522594123776%Z; lra). rewrite S in G.
    apply (tri_le _ v _ _ _ _ G V2). unfold e4d. lra.
Qed.
Lemma ck5dN : check 53 Cl5_d_nx (pN 53) (14 * 2 ^ 87) = true.
Proof. vm_compute. reflexivity. Qed.
Lemma ck5dF : check 53 Cl5_d_fx (grid 1727108466399 25000000000 16 ++ grid (1727108466399 + 25000000000 * Z.of_nat 16) 82950000000 16) (22 * 2 ^ 87) = true.
Proof. vm_compute. reflexivity. Qed.
Definition e5d : R := 7 / 10 ^ 17 + 22 / 2 ^ 53.
Lemma core5d_ieee (x : car N) : is_finite x = true -> 0 < B2R x <= B2R (PId N) ->
  is_finite (Cl5_d_core N x) = true /\ Rabs (B2R (Cl5_d_core N x) - Clspec 5 (B2R x)) <= e5d.
Proof.
  intros Fx Hx. destruct em_d as (E1 & E2 & E3 & E4). destruct PIH_bnd_d as [PF PB]. destruct pi_val_d as [_ PV]. change (2 ^ 51)%Z with 2251799813685248%Z in PV.
  rewrite Cl5_d_split. change (ltb N x (PIHd N)) with (Bltb x (PIHd N)). rewrite (Bltb_correct _ _ x _ Fx PF). destruct (Rlt_bool_spec (B2R x) (B2R (PIHd N))) as [Q|Q].
  - assert (Hx' : 0 < B2R x <= 15707999 / 10000000) by lra. destruct (near5d 0 (B2R x) ltac:(lra)) as (v & V1 & V2).
    destruct (near_check 53 1024 Hp53 He53 E3 E1 E2 E4 L HL Cl5_d_nx (14 * 2 ^ 87) 0 v x ck5dN Fx Hx' V1) as [F G].
    change (NumB 53 1024 Hp53 He53 L) with N in F, G. rewrite (Cl5_d_nx_ok N) in F, G. cbn [nth] in F, G. set (w := Cl5_d_near N x (nlog N x)) in F, G |- *. clearbody w. split; [exact F|].
    assert (S : IZR (14 * 2 ^ 87) / sc = 14 / 2 ^ 53) by (unfold sc; change (14 * 2 ^ 87)%Z with 2166395068749415481073467392%Z; change SH with 1393796574908163946345982392040522594123776%Z; lra). rewrite S in G.
    apply (tri_le _ v _ _ _ _ G V2). unfold e5d. lra.
  - assert (Hx' : 1570796 / 1000000 <= B2R x <= 31416 / 10000) by lra. destruct (far5d 0 (B2R x) Hx') as (v & V1 & V2).
    destruct (far_check 53 1024 Hp53 He53 E3 E1 E2 L Cl5_d_fx (22 * 2 ^ 87) 0 v x 1727108466399 25000000000 16 82950000000 16 ck5dF) as [F G]; [lia|lia|lia|lia|exact Fx| |exact V1|].
    { unfold s40. change (2 ^ 40)%Z with 1099511627776%Z. change (1727108466399 + 25000000000 * Z.of_nat 16 + 82950000000 * Z.of_nat 16)%Z with 3454308466399%Z. lra. }
    change (NumB 53 1024 Hp53 He53 L) with N in F, G. rewrite (Cl5_d_fx_ok N) in F, G. cbn [nth] in F, G. set (w := Cl5_d_far N x) in F, G |- *. clearbody w. split; [exact F|].
    assert (S : IZR (22 * 2 ^ 87) / sc = 22 / 2 ^ 53) by (unfold sc; change (22 * 2 ^ 87)%Z with 3404335108034795755972591616%Z; change SH with 1393796574908163946345982392040522594123776%Z; lra). rewrite S in G.
    apply (tri_le _ v _ _ _ _ G V2). unfold e5d. lra.
Qed.
Lemma ck6dN : check 53 Cl6_d_nx (pN 53) (15 * 2 ^ 87) = true.
Proof. vm_compute. reflexivity. Qed.
Lemma ck6dF : check 53 Cl6_d_fx (grid 1727108466399 25000000000 16 ++ grid (1727108466399 + 25000000000 * Z.of_nat 16) 82950000000 16) (27 * 2 ^ 87) = true.
Proof. vm_compute. reflexivity. Qed.
Definition e6d : R := 6 / 10 ^ 16 + 27 / 2 ^ 53.
Lemma core6d_ieee (x : car N) : is_finite x = true -> 0 < B2R x <= B2R (PId N) ->
  is_finite (Cl6_d_core N x) = true /\ Rabs (B2R (Cl6_d_core N x) - Clspec 6 (B2R x)) <= e6d.
Proof.
  intros Fx Hx. destruct em_d as (E1 & E2 & E3 & E4). destruct PIH_bnd_d as [PF PB]. destruct pi_val_d as [_ PV]. change (2 ^ 51)%Z with 2251799813685248%Z in PV.
  rewrite Cl6_d_split. change (ltb N x (PIHd N)) with (Bltb x (PIHd N)). rewrite (Bltb_correct _ _ x _ Fx PF). destruct (Rlt_bool_spec (B2R x) (B2R (PIHd N))) as [Q|Q].
  - assert (Hx' : 0 < B2R x <= 15707999 / 10000000) by lra. destruct (near6d 0 (B2R x) ltac:(lra)) as (v & V1 & V2).
    destruct (near_check 53 1024 Hp53 He53 E3 E1 E2 E4 L HL Cl6_d_nx (15 * 2 ^ 87) 0 v x ck6dN Fx Hx' V1) as [F G].
    change (NumB 53 1024 Hp53 He53 L) with N in F, G. rewrite (Cl6_d_nx_ok N) in F, G. cbn [nth] in F, G. set (w := Cl6_d_near N x (nlog N x)) in F, G |- *. clearbody w. split; [exact F|].
    assert (S : IZR (15 * 2 ^ 87) / sc = 15 / 2 ^ 53) by (unfold sc; change (15 * 2 ^ 87)%Z with 2321137573660088015435857920%Z; change SH with 1393796574908163946345982392040522594123776%Z; lra). rewrite S in G.
    apply (tri_le _ v _ _ _ _ G V2). unfold e6d. lra.
  - assert (Hx' : 1570796 / 1000000 <= B2R x <= 31416 / 10000) by lra. destruct (far6d 0 (B2R x) Hx') as (v & V1 & V2).
    destruct (far_check 53 1024 Hp53 He53 E3 E1 E2 L Cl6_d_fx (27 * 2 ^ 87) 0 v x 1727108466399 25000000000 16 82950000000 16 ck6dF) as [F G]; [lia|lia|lia|lia|exact Fx| |exact V1|].
    { unfold s40. change (2 ^ 40)%Z with 1099511627776%Z. change (1727108466399 + 25000000000 * Z.of_nat 16 + 82950000000 * Z.of_nat 16)%Z with 3454308466399%Z. lra. }
    change (NumB 53 1024 Hp53 He53 L) with N in F, G. rewrite (Cl6_d_fx_ok N) in F, G. cbn [nth] in F, G. set (w := Cl6_d_far N x) in F, G |- *. clearbody w. split; [exact F|].
    assert (S : IZR (27 * 2 ^ 87) / sc = 27 / 2 ^ 53) by (unfold sc; change (27 * 2 ^ 87)%Z with 4178047632588158427784544256%Z; change SH with 1393796574908163946345982392040522594123776%Z; lra). rewrite S in G.
    apply (tri_le _ v _ _ _ _ G V2). unfold e6d. lra.
Qed.
End C.
