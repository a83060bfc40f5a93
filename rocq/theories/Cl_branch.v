(** * The two branches of the cores of Cl2 .. Cl6

    [Cln_t_near x l] is the branch x < PI/2 with l for log(x), [Cln_t_far x] the
    other one.  The accuracy of each branch in exact arithmetic does not need
    the branch condition itself, only a slightly larger interval, because the
    floating-point comparison with PI/2 is not exact.
    Generated by tools/gen_cl_branch.py. *)
From Coq Require Import ZArith Reals Lra Lia Psatz List Bool.
From Flocq Require Import Core.
From Coquelicot Require Import Coquelicot.
From Verif Require Import Num NumR Eval_R Consts Model_Cl16 Cl_shape Fourier Polylog Chain Clausen Clausen_vals Clausen_ref Cl_ratio Cl_ratio_l Proof_Cl Ferr FerrB.
Import ListNotations.
Local Open Scope Z_scope.

Section M.
Variable N : num.
Local Notation "x + y" := (add N x y).
Local Notation "x - y" := (sub N x y).
Local Notation "x * y" := (mul N x y).
Local Notation "x / y" := (div N x y).
Definition PIHd := PId N / lit N 2 0.
Definition PIHl := PIl N / lit N 2 0.
Definition Cl2_d_near (x l : N) : N :=
  let PI := PId N in
  let PIH := PI / lit N 2 0 in
  let PI28 := PI * PI / lit N 8 0 in
  let y := x * x in let y2 := y * y in x * ((lit N 1 0) - l + y * Cl2_d_p N y / Cl2_d_q N y).
Definition Cl2_d_far (x : N) : N :=
  let PI := PId N in
  let PIH := PI / lit N 2 0 in
  let PI28 := PI * PI / lit N 8 0 in
  let y := PI - x in let z := y * y - PI28 in y * Cl2_d_p2 N z / Cl2_d_q2 N z.
Lemma Cl2_d_split x : Cl2_d_core N x = if ltb N x PIHd then Cl2_d_near x (nlog N x) else Cl2_d_far x.
Proof. reflexivity. Qed.
Definition Cl2_l_near (x l : N) : N :=
  let PI := PIl N in
  let PIH := PI / lit N 2 0 in
  let PI28 := PI * PI / lit N 8 0 in
  let y := x * x in let z := y - PI28 in x * ((lit N 1 0) - l + y * Cl2_l_p N z / Cl2_l_q N z).
Definition Cl2_l_far (x : N) : N :=
  let PI := PIl N in
  let PIH := PI / lit N 2 0 in
  let PI28 := PI * PI / lit N 8 0 in
  let y := PI - x in let z := y * y - PI28 in y * Cl2_l_p2 N z / Cl2_l_q2 N z.
Lemma Cl2_l_split x : Cl2_l_core N x = if ltb N x PIHl then Cl2_l_near x (nlog N x) else Cl2_l_far x.
Proof. reflexivity. Qed.
Definition Cl3_d_near (x l : N) : N :=
  let PI := PId N in
  let PIH := PI / lit N 2 0 in
  let PI28 := PI * PI / lit N 8 0 in
  let zeta3 := lit N 12020569031595943 (-16) in
  let y := x * x in let y2 := y * y in zeta3 + y * (Cl3_d_p N y / Cl3_d_q N y + (lit N 5 (-1)) * l).
Definition Cl3_d_far (x : N) : N :=
  let PI := PId N in
  let PIH := PI / lit N 2 0 in
  let PI28 := PI * PI / lit N 8 0 in
  let zeta3 := lit N 12020569031595943 (-16) in
  let y := PI - x in let z := y * y - PI28 in Cl3_d_p2 N z / Cl3_d_q2 N z.
Lemma Cl3_d_split x : Cl3_d_core N x = if ltb N x PIHd then Cl3_d_near x (nlog N x) else Cl3_d_far x.
Proof. reflexivity. Qed.
Definition Cl3_l_near (x l : N) : N :=
  let PI := PIl N in
  let PIH := PI / lit N 2 0 in
  let PI28 := PI * PI / lit N 8 0 in
  let zeta3 := lit N 12020569031595942853997381615114499908 (-37) in
  let y := x * x in let z := y - PI28 in zeta3 + y * (Cl3_l_p N z / Cl3_l_q N z + (lit N 5 (-1)) * l).
Definition Cl3_l_far (x : N) : N :=
  let PI := PIl N in
  let PIH := PI / lit N 2 0 in
  let PI28 := PI * PI / lit N 8 0 in
  let zeta3 := lit N 12020569031595942853997381615114499908 (-37) in
  let y := PI - x in let z := y * y - PI28 in Cl3_l_p2 N z / Cl3_l_q2 N z.
Lemma Cl3_l_split x : Cl3_l_core N x = if ltb N x PIHl then Cl3_l_near x (nlog N x) else Cl3_l_far x.
Proof. reflexivity. Qed.
Definition Cl4_d_near (x l : N) : N :=
  let PI := PId N in
  let PIH := PI / lit N 2 0 in
  let PI28 := PI * PI / lit N 8 0 in
  let zeta3 := lit N 12020569031595943 (-16) in
  let y := x * x in let y2 := y * y in x * (zeta3 + y * (Cl4_d_p N y / Cl4_d_q N y + (lit N 1 0) / (lit N 6 0) * l)).
Definition Cl4_d_far (x : N) : N :=
  let PI := PId N in
  let PIH := PI / lit N 2 0 in
  let PI28 := PI * PI / lit N 8 0 in
  let zeta3 := lit N 12020569031595943 (-16) in
  let y := PI - x in let z := y * y - PI28 in y * Cl4_d_p2 N z / Cl4_d_q2 N z.
Lemma Cl4_d_split x : Cl4_d_core N x = if ltb N x PIHd then Cl4_d_near x (nlog N x) else Cl4_d_far x.
Proof. reflexivity. Qed.
Definition Cl4_l_near (x l : N) : N :=
  let PI := PIl N in
  let PIH := PI / lit N 2 0 in
  let PI28 := PI * PI / lit N 8 0 in
  let zeta3 := lit N 12020569031595942853997381615114499908 (-37) in
  let y := x * x in let z := y - PI28 in x * (zeta3 + y * (Cl4_l_p N z / Cl4_l_q N z + (lit N 1 0) / (lit N 6 0) * l)).
Definition Cl4_l_far (x : N) : N :=
  let PI := PIl N in
  let PIH := PI / lit N 2 0 in
  let PI28 := PI * PI / lit N 8 0 in
  let zeta3 := lit N 12020569031595942853997381615114499908 (-37) in
  let y := PI - x in let z := y * y - PI28 in y * Cl4_l_p2 N z / Cl4_l_q2 N z.
Lemma Cl4_l_split x : Cl4_l_core N x = if ltb N x PIHl then Cl4_l_near x (nlog N x) else Cl4_l_far x.
Proof. reflexivity. Qed.
Definition Cl5_d_near (x l : N) : N :=
  let PI := PId N in
  let PIH := PI / lit N 2 0 in
  let PI28 := PI * PI / lit N 8 0 in
  let zeta5 := lit N 10369277551433699 (-16) in
  let y := x * x in let y2 := y * y in Cl5_d_p N y / Cl5_d_q N y - (lit N 1 0) / (lit N 24 0) * y2 * l.
Definition Cl5_d_far (x : N) : N :=
  let PI := PId N in
  let PIH := PI / lit N 2 0 in
  let PI28 := PI * PI / lit N 8 0 in
  let zeta5 := lit N 10369277551433699 (-16) in
  let y := PI - x in let z := y * y - PI28 in Cl5_d_p2 N z / Cl5_d_q2 N z.
Lemma Cl5_d_split x : Cl5_d_core N x = if ltb N x PIHd then Cl5_d_near x (nlog N x) else Cl5_d_far x.
Proof. reflexivity. Qed.
Definition Cl5_l_near (x l : N) : N :=
  let PI := PIl N in
  let PIH := PI / lit N 2 0 in
  let PI28 := PI * PI / lit N 8 0 in
  let zeta5 := lit N 1036927755143369926331365486457034168057 (-39) in
  let y := x * x in let y2 := y * y in Cl5_l_p N y / Cl5_l_q N y - (lit N 1 0) / (lit N 24 0) * y2 * l.
Definition Cl5_l_far (x : N) : N :=
  let PI := PIl N in
  let PIH := PI / lit N 2 0 in
  let PI28 := PI * PI / lit N 8 0 in
  let zeta5 := lit N 1036927755143369926331365486457034168057 (-39) in
  let y := PI - x in let z := y * y - PI28 in Cl5_l_p2 N z / Cl5_l_q2 N z.
Lemma Cl5_l_split x : Cl5_l_core N x = if ltb N x PIHl then Cl5_l_near x (nlog N x) else Cl5_l_far x.
Proof. reflexivity. Qed.
Definition Cl6_d_near (x l : N) : N :=
  let PI := PId N in
  let PIH := PI / lit N 2 0 in
  let PI28 := PI * PI / lit N 8 0 in
  let y := x * x in let y2 := y * y in x * (Cl6_d_p N y / Cl6_d_q N y - (lit N 1 0) / (lit N 120 0) * y2 * l).
Definition Cl6_d_far (x : N) : N :=
  let PI := PId N in
  let PIH := PI / lit N 2 0 in
  let PI28 := PI * PI / lit N 8 0 in
  let y := PI - x in let z := y * y - PI28 in y * Cl6_d_p2 N z / Cl6_d_q2 N z.
Lemma Cl6_d_split x : Cl6_d_core N x = if ltb N x PIHd then Cl6_d_near x (nlog N x) else Cl6_d_far x.
Proof. reflexivity. Qed.
Definition Cl6_l_near (x l : N) : N :=
  let PI := PIl N in
  let PIH := PI / lit N 2 0 in
  let PI28 := PI * PI / lit N 8 0 in
  let y := x * x in let y2 := y * y in x * (Cl6_l_p N y / Cl6_l_q N y - (lit N 1 0) / (lit N 120 0) * y2 * l).
Definition Cl6_l_far (x : N) : N :=
  let PI := PIl N in
  let PIH := PI / lit N 2 0 in
  let PI28 := PI * PI / lit N 8 0 in
  let y := PI - x in let z := y * y - PI28 in y * Cl6_l_p2 N z / Cl6_l_q2 N z.
Lemma Cl6_l_split x : Cl6_l_core N x = if ltb N x PIHl then Cl6_l_near x (nlog N x) else Cl6_l_far x.
Proof. reflexivity. Qed.
End M.
Definition Cl2_d_nx : ex := Cl2_d_near NumE (V 0) (V 1).
Definition Cl2_d_fx : ex := Cl2_d_far NumE (V 0).
Lemma Cl2_d_nx_ok (N : num) env : evalN N env Cl2_d_nx = Cl2_d_near N (env 0%nat) (env 1%nat).
Proof. reflexivity. Qed.
Lemma Cl2_d_fx_ok (N : num) env : evalN N env Cl2_d_fx = Cl2_d_far N (env 0%nat).
Proof. reflexivity. Qed.
Definition Cl2_l_nx : ex := Cl2_l_near NumE (V 0) (V 1).
Definition Cl2_l_fx : ex := Cl2_l_far NumE (V 0).
Lemma Cl2_l_nx_ok (N : num) env : evalN N env Cl2_l_nx = Cl2_l_near N (env 0%nat) (env 1%nat).
Proof. reflexivity. Qed.
Lemma Cl2_l_fx_ok (N : num) env : evalN N env Cl2_l_fx = Cl2_l_far N (env 0%nat).
Proof. reflexivity. Qed.
Definition Cl3_d_nx : ex := Cl3_d_near NumE (V 0) (V 1).
Definition Cl3_d_fx : ex := Cl3_d_far NumE (V 0).
Lemma Cl3_d_nx_ok (N : num) env : evalN N env Cl3_d_nx = Cl3_d_near N (env 0%nat) (env 1%nat).
Proof. reflexivity. Qed.
Lemma Cl3_d_fx_ok (N : num) env : evalN N env Cl3_d_fx = Cl3_d_far N (env 0%nat).
Proof. reflexivity. Qed.
Definition Cl3_l_nx : ex := Cl3_l_near NumE (V 0) (V 1).
Definition Cl3_l_fx : ex := Cl3_l_far NumE (V 0).
Lemma Cl3_l_nx_ok (N : num) env : evalN N env Cl3_l_nx = Cl3_l_near N (env 0%nat) (env 1%nat).
Proof. reflexivity. Qed.
Lemma Cl3_l_fx_ok (N : num) env : evalN N env Cl3_l_fx = Cl3_l_far N (env 0%nat).
Proof. reflexivity. Qed.
Definition Cl4_d_nx : ex := Cl4_d_near NumE (V 0) (V 1).
Definition Cl4_d_fx : ex := Cl4_d_far NumE (V 0).
Lemma Cl4_d_nx_ok (N : num) env : evalN N env Cl4_d_nx = Cl4_d_near N (env 0%nat) (env 1%nat).
Proof. reflexivity. Qed.
Lemma Cl4_d_fx_ok (N : num) env : evalN N env Cl4_d_fx = Cl4_d_far N (env 0%nat).
Proof. reflexivity. Qed.
Definition Cl4_l_nx : ex := Cl4_l_near NumE (V 0) (V 1).
Definition Cl4_l_fx : ex := Cl4_l_far NumE (V 0).
Lemma Cl4_l_nx_ok (N : num) env : evalN N env Cl4_l_nx = Cl4_l_near N (env 0%nat) (env 1%nat).
Proof. reflexivity. Qed.
Lemma Cl4_l_fx_ok (N : num) env : evalN N env Cl4_l_fx = Cl4_l_far N (env 0%nat).
Proof. reflexivity. Qed.
Definition Cl5_d_nx : ex := Cl5_d_near NumE (V 0) (V 1).
Definition Cl5_d_fx : ex := Cl5_d_far NumE (V 0).
Lemma Cl5_d_nx_ok (N : num) env : evalN N env Cl5_d_nx = Cl5_d_near N (env 0%nat) (env 1%nat).
Proof. reflexivity. Qed.
Lemma Cl5_d_fx_ok (N : num) env : evalN N env Cl5_d_fx = Cl5_d_far N (env 0%nat).
Proof. reflexivity. Qed.
Definition Cl5_l_nx : ex := Cl5_l_near NumE (V 0) (V 1).
Definition Cl5_l_fx : ex := Cl5_l_far NumE (V 0).
Lemma Cl5_l_nx_ok (N : num) env : evalN N env Cl5_l_nx = Cl5_l_near N (env 0%nat) (env 1%nat).
Proof. reflexivity. Qed.
Lemma Cl5_l_fx_ok (N : num) env : evalN N env Cl5_l_fx = Cl5_l_far N (env 0%nat).
Proof. reflexivity. Qed.
Definition Cl6_d_nx : ex := Cl6_d_near NumE (V 0) (V 1).
Definition Cl6_d_fx : ex := Cl6_d_far NumE (V 0).
Lemma Cl6_d_nx_ok (N : num) env : evalN N env Cl6_d_nx = Cl6_d_near N (env 0%nat) (env 1%nat).
Proof. reflexivity. Qed.
Lemma Cl6_d_fx_ok (N : num) env : evalN N env Cl6_d_fx = Cl6_d_far N (env 0%nat).
Proof. reflexivity. Qed.
Definition Cl6_l_nx : ex := Cl6_l_near NumE (V 0) (V 1).
Definition Cl6_l_fx : ex := Cl6_l_far NumE (V 0).
Lemma Cl6_l_nx_ok (N : num) env : evalN N env Cl6_l_nx = Cl6_l_near N (env 0%nat) (env 1%nat).
Proof. reflexivity. Qed.
Lemma Cl6_l_fx_ok (N : num) env : evalN N env Cl6_l_fx = Cl6_l_far N (env 0%nat).
Proof. reflexivity. Qed.

Local Open Scope R_scope.
Lemma Cl_even_pi n : Nat.even n = true -> Clspec n PI = 0.
Proof. intros E. pose proof (refl_pi n 0) as H. replace (PI - - 0) with PI in H by ring. rewrite Rminus_0_r in H. unfold par in H. rewrite E in H. lra. Qed.
Lemma combFe' n w r e : (n = 2 \/ n = 4 \/ n = 6)%nat -> - (8 / 5) < w < 8 / 5 -> Rabs (r - eF n (w * w)) <= e -> Rabs (w * r - Clspec n (PI - w)) <= 16 / 10 * e + 4 / 10 ^ 37.
Proof.
  intros Hn Hw H. destruct (Req_dec w 0) as [E|E]; [|exact (combFe n w r e Hn Hw E H)].
  rewrite E. rewrite Rmult_0_l, Rminus_0_r, Cl_even_pi by (destruct Hn as [->|[->| ->]]; reflexivity). rewrite Rminus_0_r, Rabs_R0. pose proof (Rabs_pos (r - eF n (w * w))). assert (0 < 10 ^ 37) by (apply pow_lt; lra). assert (0 < 4 / 10 ^ 37) by (apply Rdiv_lt_0_compat; lra). lra.
Qed.
Lemma near2d ep x : 0 < x <= 15708 / 10000 -> exists v, Cl2_d_near (NumR ep) (Some x) (Some (ln x)) = Some v /\ Rabs (v - Clspec 2 x) <= 3 / 10 ^ 17.
Proof.
  intros Hx. assert (Hs : 0 < x < 8 / 5) by lra. assert (Hy : 0 <= x * x <= 987 / 400) by (split; nra).
  unfold Cl2_d_near. core_start. 
    destruct (r2dN ep (x * x) Hy) as (p & q & Ep & Eq & Q0 & H). rewrite Ep, Eq. cbn [lift2].
    rewrite odiv_some by lra. cbn [lift2]. eexists. split; [reflexivity|].
    match goal with |- Rabs (?a - _) <= _ => replace a with (x * (1 - ln x + x * x * (p / q))) by (field; lra) end.
    eapply Rle_trans; [apply (comb2N _ _ _ Hs H)|lra].
Qed.
Lemma far2d ep x : 1570796 / 1000000 <= x <= 31416 / 10000 -> exists v, Cl2_d_far (NumR ep) (Some x) = Some v /\ Rabs (v - Clspec 2 x) <= 3 / 10 ^ 17.
Proof.
  intros Hx. unfold Cl2_d_far. core_start. cbn [lift2]. rewrite sub_d. pose proof Pd_err as PE. pose proof PI_dec20 as PD.
    assert (Hw : - (8 / 5) < Pd - x < 8 / 5) by lra.
    assert (Hy : 0 <= (Pd - x) * (Pd - x) <= 987 / 400).
    { assert (W2 : - (15708 / 10000) <= Pd - x <= 15708 / 10000) by lra. clear - W2. revert W2. generalize (Pd - x). intros w W2. nra. }
    destruct (r2dF ep _ Hy) as (p & q & Ep & Eq & Q0 & H). rewrite Ep, Eq. cbn [lift2]. rewrite odiv_some by lra. eexists. split; [reflexivity|].
    eapply Rle_trans; [apply (far_arg 2 Pd (16 / 10 ^ 19) x); [lia|apply Rabs_le; lra|lra|lra|]|].
    + match goal with |- Rabs (?a - _) <= _ => replace a with ((Pd - x) * (p / q)) by (field; lra) end. apply (combFe' 2 _ _ _ ltac:(tauto) Hw H).
    + lra.
Qed.
Lemma near3d ep x : 0 < x <= 15708 / 10000 -> exists v, Cl3_d_near (NumR ep) (Some x) (Some (ln x)) = Some v /\ Rabs (v - Clspec 3 x) <= 1 / 10 ^ 16.
Proof.
  intros Hx. assert (Hs : 0 < x < 8 / 5) by lra. assert (Hy : 0 <= x * x <= 987 / 400) by (split; nra).
  unfold Cl3_d_near. core_start. 
    destruct (r3dN ep (x * x) Hy) as (p & q & Ep & Eq & Q0 & H). rewrite Ep, Eq. cbn [lift2].
    rewrite odiv_some by lra. cbn [lift2]. eexists. split; [reflexivity|].
    match goal with |- Rabs (?a - _) <= _ => replace a with (Z3d + x * x * (p / q + / 2 * ln x)) by (field; lra) end.
    eapply Rle_trans; [apply (comb3N _ _ _ _ _ Hs H Z3d_err)|lra].
Qed.
Lemma far3d ep x : 1570796 / 1000000 <= x <= 31416 / 10000 -> exists v, Cl3_d_far (NumR ep) (Some x) = Some v /\ Rabs (v - Clspec 3 x) <= 1 / 10 ^ 16.
Proof.
  intros Hx. unfold Cl3_d_far. core_start. cbn [lift2]. rewrite sub_d. pose proof Pd_err as PE. pose proof PI_dec20 as PD.
    assert (Hw : - (8 / 5) < Pd - x < 8 / 5) by lra.
    assert (Hy : 0 <= (Pd - x) * (Pd - x) <= 987 / 400).
    { assert (W2 : - (15708 / 10000) <= Pd - x <= 15708 / 10000) by lra. clear - W2. revert W2. generalize (Pd - x). intros w W2. nra. }
    destruct (r3dF ep _ Hy) as (p & q & Ep & Eq & Q0 & H). rewrite Ep, Eq. cbn [lift2]. rewrite odiv_some by lra. eexists. split; [reflexivity|].
    eapply Rle_trans; [apply (far_arg 3 Pd (16 / 10 ^ 19) x); [lia|apply Rabs_le; lra|lra|lra|]|].
    + apply (combFo 3 _ _ _ ltac:(tauto) Hw H).
    + lra.
Qed.
Lemma near4d ep x : 0 < x <= 15708 / 10000 -> exists v, Cl4_d_near (NumR ep) (Some x) (Some (ln x)) = Some v /\ Rabs (v - Clspec 4 x) <= 1 / 10 ^ 16.
Proof.
  intros Hx. assert (Hs : 0 < x < 8 / 5) by lra. assert (Hy : 0 <= x * x <= 987 / 400) by (split; nra).
  unfold Cl4_d_near. core_start. 
    destruct (r4dN ep (x * x) Hy) as (p & q & Ep & Eq & Q0 & H). rewrite Ep, Eq. cbn [lift2].
    rewrite odiv_some by lra. cbn [lift2]. eexists. split; [reflexivity|].
    match goal with |- Rabs (?a - _) <= _ => replace a with (x * (Z3d + x * x * (p / q + / 6 * ln x))) by (field; lra) end.
    eapply Rle_trans; [apply (comb4N _ _ _ _ _ Hs H Z3d_err)|lra].
Qed.
Lemma far4d ep x : 1570796 / 1000000 <= x <= 31416 / 10000 -> exists v, Cl4_d_far (NumR ep) (Some x) = Some v /\ Rabs (v - Clspec 4 x) <= 1 / 10 ^ 16.
Proof.
  intros Hx. unfold Cl4_d_far. core_start. cbn [lift2]. rewrite sub_d. pose proof Pd_err as PE. pose proof PI_dec20 as PD.
    assert (Hw : - (8 / 5) < Pd - x < 8 / 5) by lra.
    assert (Hy : 0 <= (Pd - x) * (Pd - x) <= 987 / 400).
    { assert (W2 : - (15708 / 10000) <= Pd - x <= 15708 / 10000) by lra. clear - W2. revert W2. generalize (Pd - x). intros w W2. nra. }
    destruct (r4dF ep _ Hy) as (p & q & Ep & Eq & Q0 & H). rewrite Ep, Eq. cbn [lift2]. rewrite odiv_some by lra. eexists. split; [reflexivity|].
    eapply Rle_trans; [apply (far_arg 4 Pd (16 / 10 ^ 19) x); [lia|apply Rabs_le; lra|lra|lra|]|].
    + match goal with |- Rabs (?a - _) <= _ => replace a with ((Pd - x) * (p / q)) by (field; lra) end. apply (combFe' 4 _ _ _ ltac:(tauto) Hw H).
    + lra.
Qed.
Lemma near5d ep x : 0 < x <= 15708 / 10000 -> exists v, Cl5_d_near (NumR ep) (Some x) (Some (ln x)) = Some v /\ Rabs (v - Clspec 5 x) <= 7 / 10 ^ 17.
Proof.
  intros Hx. assert (Hs : 0 < x < 8 / 5) by lra. assert (Hy : 0 <= x * x <= 987 / 400) by (split; nra).
  unfold Cl5_d_near. core_start. 
    destruct (r5dN ep (x * x) Hy) as (p & q & Ep & Eq & Q0 & H). rewrite Ep, Eq. cbn [lift2].
    rewrite odiv_some by lra. cbn [lift2]. eexists. split; [reflexivity|].
    match goal with |- Rabs (?a - _) <= _ => replace a with (p / q - / 24 * ((x * x) * (x * x)) * ln x) by (field; lra) end.
    eapply Rle_trans; [apply (comb5N _ _ _ Hs H)|lra].
Qed.
Lemma far5d ep x : 1570796 / 1000000 <= x <= 31416 / 10000 -> exists v, Cl5_d_far (NumR ep) (Some x) = Some v /\ Rabs (v - Clspec 5 x) <= 7 / 10 ^ 17.
Proof.
  intros Hx. unfold Cl5_d_far. core_start. cbn [lift2]. rewrite sub_d. pose proof Pd_err as PE. pose proof PI_dec20 as PD.
    assert (Hw : - (8 / 5) < Pd - x < 8 / 5) by lra.
    assert (Hy : 0 <= (Pd - x) * (Pd - x) <= 987 / 400).
    { assert (W2 : - (15708 / 10000) <= Pd - x <= 15708 / 10000) by lra. clear - W2. revert W2. generalize (Pd - x). intros w W2. nra. }
    destruct (r5dF ep _ Hy) as (p & q & Ep & Eq & Q0 & H). rewrite Ep, Eq. cbn [lift2]. rewrite odiv_some by lra. eexists. split; [reflexivity|].
    eapply Rle_trans; [apply (far_arg 5 Pd (16 / 10 ^ 19) x); [lia|apply Rabs_le; lra|lra|lra|]|].
    + apply (combFo 5 _ _ _ ltac:(tauto) Hw H).
    + lra.
Qed.
Lemma near6d ep x : 0 < x <= 15708 / 10000 -> exists v, Cl6_d_near (NumR ep) (Some x) (Some (ln x)) = Some v /\ Rabs (v - Clspec 6 x) <= 6 / 10 ^ 16.
Proof.
  intros Hx. assert (Hs : 0 < x < 8 / 5) by lra. assert (Hy : 0 <= x * x <= 987 / 400) by (split; nra).
  unfold Cl6_d_near. core_start. 
    destruct (r6dN ep (x * x) Hy) as (p & q & Ep & Eq & Q0 & H). rewrite Ep, Eq. cbn [lift2].
    rewrite odiv_some by lra. cbn [lift2]. eexists. split; [reflexivity|].
    match goal with |- Rabs (?a - _) <= _ => replace a with (x * (p / q - / 120 * ((x * x) * (x * x)) * ln x)) by (field; lra) end.
    eapply Rle_trans; [apply (comb6N _ _ _ Hs H)|lra].
Qed.
Lemma far6d ep x : 1570796 / 1000000 <= x <= 31416 / 10000 -> exists v, Cl6_d_far (NumR ep) (Some x) = Some v /\ Rabs (v - Clspec 6 x) <= 6 / 10 ^ 16.
Proof.
  intros Hx. unfold Cl6_d_far. core_start. cbn [lift2]. rewrite sub_d. pose proof Pd_err as PE. pose proof PI_dec20 as PD.
    assert (Hw : - (8 / 5) < Pd - x < 8 / 5) by lra.
    assert (Hy : 0 <= (Pd - x) * (Pd - x) <= 987 / 400).
    { assert (W2 : - (15708 / 10000) <= Pd - x <= 15708 / 10000) by lra. clear - W2. revert W2. generalize (Pd - x). intros w W2. nra. }
    destruct (r6dF ep _ Hy) as (p & q & Ep & Eq & Q0 & H). rewrite Ep, Eq. cbn [lift2]. rewrite odiv_some by lra. eexists. split; [reflexivity|].
    eapply Rle_trans; [apply (far_arg 6 Pd (16 / 10 ^ 19) x); [lia|apply Rabs_le; lra|lra|lra|]|].
    + match goal with |- Rabs (?a - _) <= _ => replace a with ((Pd - x) * (p / q)) by (field; lra) end. apply (combFe' 6 _ _ _ ltac:(tauto) Hw H).
    + lra.
Qed.
Lemma near2l ep x : 0 < x <= 15708 / 10000 -> exists v, Cl2_l_near (NumR ep) (Some x) (Some (ln x)) = Some v /\ Rabs (v - Clspec 2 x) <= 1 / 10 ^ 35.
Proof.
  intros Hx. assert (Hs : 0 < x < 8 / 5) by lra. assert (Hy : 0 <= x * x <= 987 / 400) by (split; nra).
  unfold Cl2_l_near. core_start. rewrite sub_l.
    destruct (r2lN ep (x * x) Hy) as (p & q & Ep & Eq & Q0 & H). rewrite Ep, Eq. cbn [lift2].
    rewrite odiv_some by lra. cbn [lift2]. eexists. split; [reflexivity|].
    match goal with |- Rabs (?a - _) <= _ => replace a with (x * (1 - ln x + x * x * (p / q))) by (field; lra) end.
    eapply Rle_trans; [apply (comb2N _ _ _ Hs H)|lra].
Qed.
Lemma far2l ep x : 1570796 / 1000000 <= x <= 31416 / 10000 -> exists v, Cl2_l_far (NumR ep) (Some x) = Some v /\ Rabs (v - Clspec 2 x) <= 1 / 10 ^ 35.
Proof.
  intros Hx. unfold Cl2_l_far. core_start. cbn [lift2]. rewrite sub_l. pose proof Pl_err as PE. pose proof PI_dec20 as PD.
    assert (Hw : - (8 / 5) < Pl - x < 8 / 5) by lra.
    assert (Hy : 0 <= (Pl - x) * (Pl - x) <= 987 / 400).
    { assert (W2 : - (15708 / 10000) <= Pl - x <= 15708 / 10000) by lra. clear - W2. revert W2. generalize (Pl - x). intros w W2. nra. }
    destruct (r2lF ep _ Hy) as (p & q & Ep & Eq & Q0 & H). rewrite Ep, Eq. cbn [lift2]. rewrite odiv_some by lra. eexists. split; [reflexivity|].
    eapply Rle_trans; [apply (far_arg 2 Pl (42 / 10 ^ 37) x); [lia|apply Rabs_le; lra|lra|lra|]|].
    + match goal with |- Rabs (?a - _) <= _ => replace a with ((Pl - x) * (p / q)) by (field; lra) end. apply (combFe' 2 _ _ _ ltac:(tauto) Hw H).
    + lra.
Qed.
Lemma near3l ep x : 0 < x <= 15708 / 10000 -> exists v, Cl3_l_near (NumR ep) (Some x) (Some (ln x)) = Some v /\ Rabs (v - Clspec 3 x) <= 7 / 10 ^ 26.
Proof.
  intros Hx. assert (Hs : 0 < x < 8 / 5) by lra. assert (Hy : 0 <= x * x <= 987 / 400) by (split; nra).
  unfold Cl3_l_near. core_start. rewrite sub_l.
    destruct (r3lN ep (x * x) Hy) as (p & q & Ep & Eq & Q0 & H). rewrite Ep, Eq. cbn [lift2].
    rewrite odiv_some by lra. cbn [lift2]. eexists. split; [reflexivity|].
    match goal with |- Rabs (?a - _) <= _ => replace a with (Z3l + x * x * (p / q + / 2 * ln x)) by (field; lra) end.
    eapply Rle_trans; [apply (comb3N _ _ _ _ _ Hs H Z3l_err)|lra].
Qed.
Lemma far3l ep x : 1570796 / 1000000 <= x <= 31416 / 10000 -> exists v, Cl3_l_far (NumR ep) (Some x) = Some v /\ Rabs (v - Clspec 3 x) <= 7 / 10 ^ 26.
Proof.
  intros Hx. unfold Cl3_l_far. core_start. cbn [lift2]. rewrite sub_l. pose proof Pl_err as PE. pose proof PI_dec20 as PD.
    assert (Hw : - (8 / 5) < Pl - x < 8 / 5) by lra.
    assert (Hy : 0 <= (Pl - x) * (Pl - x) <= 987 / 400).
    { assert (W2 : - (15708 / 10000) <= Pl - x <= 15708 / 10000) by lra. clear - W2. revert W2. generalize (Pl - x). intros w W2. nra. }
    destruct (r3lF ep _ Hy) as (p & q & Ep & Eq & Q0 & H). rewrite Ep, Eq. cbn [lift2]. rewrite odiv_some by lra. eexists. split; [reflexivity|].
    eapply Rle_trans; [apply (far_arg 3 Pl (42 / 10 ^ 37) x); [lia|apply Rabs_le; lra|lra|lra|]|].
    + apply (combFo 3 _ _ _ ltac:(tauto) Hw H).
    + lra.
Qed.
Lemma near4l ep x : 0 < x <= 15708 / 10000 -> exists v, Cl4_l_near (NumR ep) (Some x) (Some (ln x)) = Some v /\ Rabs (v - Clspec 4 x) <= 1 / 10 ^ 25.
Proof.
  intros Hx. assert (Hs : 0 < x < 8 / 5) by lra. assert (Hy : 0 <= x * x <= 987 / 400) by (split; nra).
  unfold Cl4_l_near. core_start. rewrite sub_l.
    destruct (r4lN ep (x * x) Hy) as (p & q & Ep & Eq & Q0 & H). rewrite Ep, Eq. cbn [lift2].
    rewrite odiv_some by lra. cbn [lift2]. eexists. split; [reflexivity|].
    match goal with |- Rabs (?a - _) <= _ => replace a with (x * (Z3l + x * x * (p / q + / 6 * ln x))) by (field; lra) end.
    eapply Rle_trans; [apply (comb4N _ _ _ _ _ Hs H Z3l_err)|lra].
Qed.
Lemma far4l ep x : 1570796 / 1000000 <= x <= 31416 / 10000 -> exists v, Cl4_l_far (NumR ep) (Some x) = Some v /\ Rabs (v - Clspec 4 x) <= 1 / 10 ^ 25.
Proof.
  intros Hx. unfold Cl4_l_far. core_start. cbn [lift2]. rewrite sub_l. pose proof Pl_err as PE. pose proof PI_dec20 as PD.
    assert (Hw : - (8 / 5) < Pl - x < 8 / 5) by lra.
    assert (Hy : 0 <= (Pl - x) * (Pl - x) <= 987 / 400).
    { assert (W2 : - (15708 / 10000) <= Pl - x <= 15708 / 10000) by lra. clear - W2. revert W2. generalize (Pl - x). intros w W2. nra. }
    destruct (r4lF ep _ Hy) as (p & q & Ep & Eq & Q0 & H). rewrite Ep, Eq. cbn [lift2]. rewrite odiv_some by lra. eexists. split; [reflexivity|].
    eapply Rle_trans; [apply (far_arg 4 Pl (42 / 10 ^ 37) x); [lia|apply Rabs_le; lra|lra|lra|]|].
    + match goal with |- Rabs (?a - _) <= _ => replace a with ((Pl - x) * (p / q)) by (field; lra) end. apply (combFe' 4 _ _ _ ltac:(tauto) Hw H).
    + lra.
Qed.
Lemma near5l ep x : 0 < x <= 15708 / 10000 -> exists v, Cl5_l_near (NumR ep) (Some x) (Some (ln x)) = Some v /\ Rabs (v - Clspec 5 x) <= 7 / 10 ^ 26.
Proof.
  intros Hx. assert (Hs : 0 < x < 8 / 5) by lra. assert (Hy : 0 <= x * x <= 987 / 400) by (split; nra).
  unfold Cl5_l_near. core_start. 
    destruct (r5lN ep (x * x) Hy) as (p & q & Ep & Eq & Q0 & H). rewrite Ep, Eq. cbn [lift2].
    rewrite odiv_some by lra. cbn [lift2]. eexists. split; [reflexivity|].
    match goal with |- Rabs (?a - _) <= _ => replace a with (p / q - / 24 * ((x * x) * (x * x)) * ln x) by (field; lra) end.
    eapply Rle_trans; [apply (comb5N _ _ _ Hs H)|lra].
Qed.
Lemma far5l ep x : 1570796 / 1000000 <= x <= 31416 / 10000 -> exists v, Cl5_l_far (NumR ep) (Some x) = Some v /\ Rabs (v - Clspec 5 x) <= 7 / 10 ^ 26.
Proof.
  intros Hx. unfold Cl5_l_far. core_start. cbn [lift2]. rewrite sub_l. pose proof Pl_err as PE. pose proof PI_dec20 as PD.
    assert (Hw : - (8 / 5) < Pl - x < 8 / 5) by lra.
    assert (Hy : 0 <= (Pl - x) * (Pl - x) <= 987 / 400).
    { assert (W2 : - (15708 / 10000) <= Pl - x <= 15708 / 10000) by lra. clear - W2. revert W2. generalize (Pl - x). intros w W2. nra. }
    destruct (r5lF ep _ Hy) as (p & q & Ep & Eq & Q0 & H). rewrite Ep, Eq. cbn [lift2]. rewrite odiv_some by lra. eexists. split; [reflexivity|].
    eapply Rle_trans; [apply (far_arg 5 Pl (42 / 10 ^ 37) x); [lia|apply Rabs_le; lra|lra|lra|]|].
    + apply (combFo 5 _ _ _ ltac:(tauto) Hw H).
    + lra.
Qed.
Lemma near6l ep x : 0 < x <= 15708 / 10000 -> exists v, Cl6_l_near (NumR ep) (Some x) (Some (ln x)) = Some v /\ Rabs (v - Clspec 6 x) <= 1 / 10 ^ 25.
Proof.
  intros Hx. assert (Hs : 0 < x < 8 / 5) by lra. assert (Hy : 0 <= x * x <= 987 / 400) by (split; nra).
  unfold Cl6_l_near. core_start. 
    destruct (r6lN ep (x * x) Hy) as (p & q & Ep & Eq & Q0 & H). rewrite Ep, Eq. cbn [lift2].
    rewrite odiv_some by lra. cbn [lift2]. eexists. split; [reflexivity|].
    match goal with |- Rabs (?a - _) <= _ => replace a with (x * (p / q - / 120 * ((x * x) * (x * x)) * ln x)) by (field; lra) end.
    eapply Rle_trans; [apply (comb6N _ _ _ Hs H)|lra].
Qed.
Lemma far6l ep x : 1570796 / 1000000 <= x <= 31416 / 10000 -> exists v, Cl6_l_far (NumR ep) (Some x) = Some v /\ Rabs (v - Clspec 6 x) <= 1 / 10 ^ 25.
Proof.
  intros Hx. unfold Cl6_l_far. core_start. cbn [lift2]. rewrite sub_l. pose proof Pl_err as PE. pose proof PI_dec20 as PD.
    assert (Hw : - (8 / 5) < Pl - x < 8 / 5) by lra.
    assert (Hy : 0 <= (Pl - x) * (Pl - x) <= 987 / 400).
    { assert (W2 : - (15708 / 10000) <= Pl - x <= 15708 / 10000) by lra. clear - W2. revert W2. generalize (Pl - x). intros w W2. nra. }
    destruct (r6lF ep _ Hy) as (p & q & Ep & Eq & Q0 & H). rewrite Ep, Eq. cbn [lift2]. rewrite odiv_some by lra. eexists. split; [reflexivity|].
    eapply Rle_trans; [apply (far_arg 6 Pl (42 / 10 ^ 37) x); [lia|apply Rabs_le; lra|lra|lra|]|].
    + match goal with |- Rabs (?a - _) <= _ => replace a with ((Pl - x) * (p / q)) by (field; lra) end. apply (combFe' 6 _ _ _ ltac:(tauto) Hw H).
    + lra.
Qed.
