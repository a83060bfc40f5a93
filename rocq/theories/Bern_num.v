(** * Bernoulli numbers computed exactly, the negative tables of zeta.cpp and eta.cpp *)
From Coq Require Import Reals Lra Lia Psatz ZArith List Bool.
From Coquelicot Require Import Coquelicot.
From Bignums Require Import BigZ.
From Verif Require Import Num NumR Eval_R Polylog Consts Zeta_num Bern Model_Tables.
Import ListNotations.
Local Open Scope R_scope.

Local Notation zr x := (IZR (BigZ.to_Z x)).
Fixpoint dot (r l : list bigZ) : bigZ :=
  match r, l with a :: r', b :: l' => BigZ.add (BigZ.mul a b) (dot r' l') | _, _ => BigZ.zero end.
Fixpoint nxt (p : bigZ) (r : list bigZ) : list bigZ :=
  match r with [] => [p] | a :: r' => BigZ.add p a :: nxt a r' end.
Definition next_row (r : list bigZ) : list bigZ := nxt BigZ.zero r.
Fixpoint gen (fuel : nat) (m : nat) (row l : list bigZ) : option (list bigZ) :=
  match fuel with
  | O => Some l
  | S f =>
      let s := dot row l in let c := nth m row BigZ.zero in
      let q := BigZ.div (BigZ.opp s) c in
      if BigZ.eqb (BigZ.add (BigZ.mul c q) s) BigZ.zero then gen f (S m) (next_row row) (l ++ [q]) else None
  end.
Definition nthZ (k : nat) (l : list bigZ) : R := (zr (nth k l BigZ.zero)).
Lemma nthZ_nil k : nthZ k [] = 0. Proof. unfold nthZ. destruct k; cbn [nth]; rewrite BigZ.spec_0; reflexivity. Qed.
Lemma dot_ok r : forall l, (length l <= length r)%nat -> l <> [] -> (zr (dot r l)) = sum_f_R0 (fun k => nthZ k r * nthZ k l) (length l - 1).
Proof.
  induction r as [|a r IH]; intros [|b l] H N; [contradiction|cbn in H; lia|contradiction|].
  cbn [dot]. rewrite BigZ.spec_add, BigZ.spec_mul, plus_IZR, mult_IZR. destruct l as [|b' l].
  - replace (dot r []) with BigZ.zero by (destruct r; reflexivity). rewrite BigZ.spec_0. cbn [length Nat.sub sum_f_R0]. unfold nthZ. cbn [nth]. ring.
  - rewrite IH by (cbn [length] in *; lia || discriminate). cbn [length]. replace (S (S (length l)) - 1)%nat with (S (length l)) by lia. replace (S (length l) - 1)%nat with (length l) by lia.
    rewrite (decomp_sum (fun k => nthZ k (a :: r) * nthZ k (b :: b' :: l))) by lia. cbn [Nat.pred]. f_equal.
Qed.
Lemma nxt_nth r : forall p k, nthZ k (nxt p r) = (match k with O => (zr (p)) | S k' => nthZ k' r end) + nthZ k r \/ (length r < k)%nat.
Proof.
  induction r as [|a r IH]; intros p k.
  - destruct k as [| [|k] ]; [left | right; cbn; lia | right; cbn; lia].
    + unfold nthZ. cbn [nxt nth]. rewrite BigZ.spec_0. ring.
  - destruct k as [|k].
    + left. unfold nthZ. cbn [nxt nth]. rewrite BigZ.spec_add, plus_IZR. reflexivity.
    + destruct (IH a k) as [E|E]; [left|right; cbn [length]; lia]. change (nthZ (S k) (nxt p (a :: r))) with (nthZ k (nxt a r)). rewrite E.
      destruct k; reflexivity.
Qed.
Lemma nxt_len r : forall p, length (nxt p r) = S (length r).
Proof. induction r as [|a r IH]; intros p; cbn; [reflexivity|]. rewrite IH. reflexivity. Qed.
Definition is_row (n : nat) (r : list bigZ) : Prop := length r = S n /\ forall k, (k <= n)%nat -> nthZ k r = Binomial.C n k.
Lemma C_n_0 n : Binomial.C n 0 = 1.
Proof. unfold Binomial.C. rewrite Nat.sub_0_r. cbn [fact]. change (INR 1) with 1. pose proof (INR_fact_neq_0 n). field. assumption. Qed.
Lemma C_n_n n : Binomial.C n n = 1.
Proof. unfold Binomial.C. rewrite Nat.sub_diag. cbn [fact]. change (INR 1) with 1. pose proof (INR_fact_neq_0 n). field. assumption. Qed.
Lemma next_row_ok n r : is_row n r -> is_row (S n) (next_row r).
Proof.
  intros [Hl H]. split; [unfold next_row; rewrite nxt_len, Hl; reflexivity|]. intros k Hk. unfold next_row.
  destruct (nxt_nth r BigZ.zero k) as [E|E]; [|lia]. rewrite E. destruct k as [|k].
  - rewrite H by lia. rewrite BigZ.spec_0, !C_n_0. ring.
  - rewrite H by lia. destruct (Nat.eq_dec k n) as [-> |D].
    + replace (nthZ (S n) r) with 0; [rewrite !C_n_n; ring|]. unfold nthZ. rewrite nth_overflow by lia. rewrite BigZ.spec_0. reflexivity.
    + rewrite H by lia. apply pascal. lia.
Qed.
Section G.
Variables (b : nat -> R) (D : R).
Hypothesis B : is_bernoulli b.
Definition is_bl (l : list bigZ) : Prop := forall k, (k < length l)%nat -> nthZ k l = D * b k.
Lemma C_Sm_m m : Binomial.C (S m) m <> 0.
Proof.
  unfold Binomial.C. apply Rmult_integral_contrapositive. split; [apply INR_fact_neq_0|]. apply Rinv_neq_0_compat, Rmult_integral_contrapositive. split; apply INR_fact_neq_0.
Qed.
Lemma gen_ok fuel : forall m row l l', (1 <= m)%nat -> length l = m -> is_row (S m) row -> is_bl l -> gen fuel m row l = Some l' -> is_bl l' /\ length l' = (m + fuel)%nat.
Proof.
  induction fuel as [|f IH]; intros m row l l' Hm Hl Hr Hb; cbn [gen].
  - intros E. injection E as <-. split; [exact Hb|lia].
  - set (s := dot row l). set (c := nth m row BigZ.zero). set (q := BigZ.div (BigZ.opp s) c).
    destruct (BigZ.eqb (BigZ.add (BigZ.mul c q) s) BigZ.zero) eqn:E; [|discriminate]. intros G.
    rewrite BigZ.spec_eqb, BigZ.spec_add, BigZ.spec_mul, BigZ.spec_0 in E. apply Z.eqb_eq in E. apply (f_equal IZR) in E. rewrite plus_IZR, mult_IZR in E.
    assert (Ec : (zr (c)) = Binomial.C (S m) m) by (apply (proj2 Hr); lia).
    assert (Es : (zr (s)) = D * sum_f_R0 (fun k => Binomial.C (S m) k * b k) (m - 1)).
    { unfold s. rewrite dot_ok by ((destruct Hr; lia) || (intros ->; cbn in Hl; lia)). rewrite scal_sum, Hl. apply sum_eq. intros i Hi. rewrite (proj2 Hr) by lia. rewrite Hb by lia. ring. }
    assert (BM : sum_f_R0 (fun k => Binomial.C (S m) k * b k) (m - 1) + Binomial.C (S m) m * b m = 0).
    { rewrite <- (proj2 B m Hm). destruct m as [|m']; [lia|]. rewrite tech5. replace (S m' - 1)%nat with m' by lia. reflexivity. }
    assert (Q : (zr (q)) = D * b m).
    { apply (Rmult_eq_reg_l (Binomial.C (S m) m)); [|apply C_Sm_m]. rewrite Ec, Es in E. set (sg := sum_f_R0 _ _) in *.
      assert (sg = - (Binomial.C (S m) m * b m)) by lra. rewrite H in E. lra. }
    destruct (IH (S m) (next_row row) (l ++ [q]) l' ltac:(lia) ltac:(rewrite app_length; cbn; lia) (next_row_ok _ _ Hr)) as [I1 I2]; [|exact G|split; [exact I1|lia]].
    intros k Hk. rewrite app_length in Hk. cbn [length] in Hk. unfold nthZ. destruct (Nat.eq_dec k m) as [-> |N].
    + rewrite app_nth2 by lia. rewrite Hl, Nat.sub_diag. exact Q.
    + rewrite app_nth1 by lia. apply Hb. lia.
Qed.
End G.
(** common denominator of B_0 .. B_260: the product of the primes up to 261 *)
Definition Den : Z := 316660540451402206051523961799780143689087330537799173695893334666158783075592938409825136155637880209438531070.
Definition row2 : list bigZ := [BigZ.one; BigZ.of_Z 2; BigZ.one].
Definition bernN : nat := 262.
Definition bl : option (list bigZ) := gen bernN 1 row2 [BigZ.of_Z Den].
Lemma row2_ok : is_row 2 row2.
Proof.
  split; [reflexivity|]. intros k Hk. destruct k as [|[| [|k] ]]; [| | |lia]; unfold nthZ, row2; cbn [nth]; rewrite ?BigZ.spec_1, ?BigZ.spec_of_Z.
  - rewrite C_n_0. reflexivity.
  - unfold Binomial.C. cbn [fact Nat.sub Nat.mul Nat.add]. simpl INR. field.
  - rewrite C_n_n. reflexivity.
Qed.
Definition unsome (o : option (list bigZ)) : list bigZ := match o with Some l => l | None => [] end.
Definition issome (o : option (list bigZ)) : bool := match o with Some l => true | None => false end.
Definition bl_list : list bigZ := unsome bl.
Lemma bl_good : issome bl = true. Proof. vm_compute. reflexivity. Qed.
Lemma Den_pos : 0 < IZR Den. Proof. apply (IZR_lt 0). reflexivity. Qed.
Lemma issome_ok o : issome o = true -> o = Some (unsome o).
Proof. destruct o; [reflexivity|discriminate]. Qed.
Lemma gen_all b D fuel : is_bernoulli b -> issome (gen fuel 1 row2 [BigZ.of_Z D]) = true ->
  is_bl b (IZR D) (unsome (gen fuel 1 row2 [BigZ.of_Z D])) /\ length (unsome (gen fuel 1 row2 [BigZ.of_Z D])) = S fuel.
Proof.
  intros B. set (o := gen fuel 1 row2 [BigZ.of_Z D]). intros H. apply issome_ok in H.
  refine (gen_ok b (IZR D) B fuel 1 row2 [BigZ.of_Z D] (unsome o) (le_n 1) eq_refl row2_ok _ H).
  intros k Hk. cbn [length] in Hk. replace k with 0%nat by lia. unfold nthZ. cbn [nth]. rewrite BigZ.spec_of_Z, (proj1 B). ring.
Qed.
Strategy expand [bl bl_list]. Strategy 1000 [gen unsome].
Lemma bl_list_ok b : is_bernoulli b -> is_bl b (IZR Den) bl_list /\ length bl_list = S bernN.
Proof. intros B. exact (gen_all b Den bernN B bl_good). Qed.
Global Opaque bl_list bl.

(** ** comparison of a decimal table with exact fractions *)
Local Notation bz := BigZ.of_Z.
Definition absb (x : bigZ) : bigZ := BigZ.abs x.
Definition dnum (d : Z * Z) : bigZ := if (0 <=? snd d)%Z then BigZ.mul (bz (fst d)) (BigZ.pow (bz 10) (bz (snd d))) else bz (fst d).
Definition dden (d : Z * Z) : bigZ := if (0 <=? snd d)%Z then BigZ.one else BigZ.pow (bz 10) (bz (- snd d)).
Definition maxd : Z := ((2 ^ 53 - 1) * 2 ^ 971)%Z.
(** |d - num/den| <= 60e-18 |num/den| and 2^-10 <= |d| <= largest double *)
Definition relck (d : Z * Z) (num den : bigZ) : bool :=
  let a := dnum d in let b := dden d in
  (BigZ.leb (BigZ.mul (absb (BigZ.sub (BigZ.mul a den) (BigZ.mul num b))) (bz (10 ^ 18))) (BigZ.mul (bz 60) (BigZ.mul (absb num) b))
   && BigZ.leb (absb a) (BigZ.mul (bz maxd) b) && BigZ.leb b (BigZ.mul (bz 1024) (absb a)))%bool.
Lemma dden_pos d : 0 < zr (dden d).
Proof.
  unfold dden. destruct (0 <=? snd d)%Z eqn:E.
  - rewrite BigZ.spec_1. lra.
  - apply Z.leb_gt in E. rewrite BigZ.spec_pow, !BigZ.spec_of_Z. apply (IZR_lt 0), Z.pow_pos_nonneg; lia.
Qed.
Lemma litR_frac d : litR (fst d) (snd d) = zr (dnum d) / zr (dden d).
Proof.
  unfold litR, dnum, dden. destruct (0 <=? snd d)%Z eqn:E.
  - rewrite BigZ.spec_mul, BigZ.spec_pow, !BigZ.spec_of_Z, BigZ.spec_1. field.
  - rewrite BigZ.spec_pow, !BigZ.spec_of_Z. reflexivity.
Qed.
Lemma relck_ok d num den : relck d num den = true -> 0 < zr den ->
  Rabs (litR (fst d) (snd d) - zr num / zr den) <= 60 / 10 ^ 18 * Rabs (zr num / zr den) /\ Rabs (litR (fst d) (snd d)) <= IZR maxd /\ / 1024 <= Rabs (litR (fst d) (snd d)).
Proof.
  unfold relck. intros H P. apply andb_prop in H. destruct H as [H H3]. apply andb_prop in H. destruct H as [H1 H2].
  unfold absb in *. rewrite BigZ.spec_leb in H1, H2, H3. rewrite !BigZ.spec_mul, !BigZ.spec_abs, BigZ.spec_sub, !BigZ.spec_mul, !BigZ.spec_of_Z in H1.
  rewrite BigZ.spec_mul, BigZ.spec_abs, BigZ.spec_of_Z in H2. rewrite BigZ.spec_mul, BigZ.spec_abs, BigZ.spec_of_Z in H3.
  apply Z.leb_le, IZR_le in H1. apply Z.leb_le, IZR_le in H2. apply Z.leb_le, IZR_le in H3.
  rewrite !mult_IZR, !abs_IZR, minus_IZR, !mult_IZR in H1. rewrite mult_IZR, abs_IZR in H2. rewrite mult_IZR, abs_IZR in H3.
  pose proof (dden_pos d) as Q. rewrite litR_frac. set (a := zr (dnum d)) in *. set (q := zr (dden d)) in *. set (u := zr num) in *. set (v := zr den) in *. clearbody a q u v.
  assert (A1 : Rabs (a / q) = Rabs a / q) by (unfold Rdiv; rewrite Rabs_mult, (Rabs_pos_eq (/ q)) by (left; apply Rinv_0_lt_compat; exact Q); reflexivity).
  assert (A2 : Rabs (u / v) = Rabs u / v) by (unfold Rdiv; rewrite Rabs_mult, (Rabs_pos_eq (/ v)) by (left; apply Rinv_0_lt_compat; exact P); reflexivity).
  assert (A3 : Rabs (a / q - u / v) = Rabs (a * v - u * q) / (q * v)).
  { replace (a / q - u / v) with ((a * v - u * q) * / (q * v)) by (field; lra). rewrite Rabs_mult, (Rabs_pos_eq (/ _)); [reflexivity|]. left. apply Rinv_0_lt_compat. nra. }
  rewrite A1, A2, A3. replace (IZR (10 ^ 18)) with (10 ^ 18) in H1 by exact (pow_IZR 10 18).
  assert (W : 0 < 10 ^ 18) by (apply pow_lt; lra). set (w := 10 ^ 18) in *. clearbody w. repeat split.
  - apply (Rmult_le_reg_r (q * v * w)); [apply Rmult_lt_0_compat; [nra|lra]|].
    replace (Rabs (a * v - u * q) / (q * v) * (q * v * w)) with (Rabs (a * v - u * q) * w) by (field; lra).
    replace (60 / w * (Rabs u / v) * (q * v * w)) with (60 * (Rabs u * q)) by (field; lra). exact H1.
  - apply (Rmult_le_reg_r q); [exact Q|]. replace (Rabs a / q * q) with (Rabs a) by (field; lra). exact H2.
  - apply (Rmult_le_reg_r q); [exact Q|]. replace (Rabs a / q * q) with (Rabs a) by (field; lra). lra.
Qed.
Definition zn_num (l : list bigZ) (i : nat) : bigZ := BigZ.opp (nth (2 * i + 2) l BigZ.zero).
Definition zn_den (i : nat) : bigZ := BigZ.mul (bz Den) (bz (Z.of_nat (2 * i + 2))).
Definition en_num (l : list bigZ) (i : nat) : bigZ := BigZ.mul (bz (4 ^ Z.of_nat (i + 1) - 1)) (zn_num l i).
Lemma zeta_neg_check : (let l := bl_list in forallb (fun i => relck (nth i ZETAS_NEG (0, 0)%Z) (zn_num l i) (zn_den i)) (seq 0 130)) = true.
Proof. vm_compute. reflexivity. Qed.
Lemma eta_neg_check : (let l := bl_list in forallb (fun i => relck (nth i NEG_ETA_NEG_N (0, 0)%Z) (en_num l i) (zn_den i)) (seq 0 109)) = true.
Proof. vm_compute. reflexivity. Qed.
Definition zlim b (m : nat) : R := - b (2 * m)%nat / INR (2 * m).
Section T.
Variable b : nat -> R.
Hypothesis B : is_bernoulli b.
Lemma zn_frac i : (i < 131)%nat -> zr (zn_num bl_list i) / zr (zn_den i) = zlim b (i + 1).
Proof.
  intros H. destruct (bl_list_ok b B) as [P Q]. unfold zn_num, zn_den, zlim. rewrite BigZ.spec_opp, opp_IZR, BigZ.spec_mul, mult_IZR, !BigZ.spec_of_Z.
  fold (nthZ (2 * i + 2) bl_list). rewrite P by (rewrite Q; unfold bernN; lia). rewrite <- INR_IZR_INZ. replace (2 * (i + 1))%nat with (2 * i + 2)%nat by lia.
  pose proof Den_pos. assert (0 < INR (2 * i + 2)) by (apply lt_0_INR; lia). field. lra.
Qed.
Lemma zn_den_pos i : 0 < zr (zn_den i).
Proof.
  unfold zn_den. rewrite BigZ.spec_mul, mult_IZR, !BigZ.spec_of_Z, <- INR_IZR_INZ. apply Rmult_lt_0_compat; [apply Den_pos|apply lt_0_INR; lia].
Qed.
Theorem zeta_neg_ok i : (i < 130)%nat -> let d := nth i ZETAS_NEG (0, 0)%Z in let v := zlim b (i + 1) in
  Rabs (litR (fst d) (snd d) - v) <= 60 / 10 ^ 18 * Rabs v /\ Rabs (litR (fst d) (snd d)) <= IZR maxd /\ / 1024 <= Rabs (litR (fst d) (snd d)).
Proof.
  intros H d v. pose proof zeta_neg_check as C. cbv zeta in C. rewrite forallb_forall in C. specialize (C i ltac:(apply in_seq; lia)). fold d in C.
  apply relck_ok in C; [|apply zn_den_pos]. rewrite zn_frac in C by lia. exact C.
Qed.
Lemma en_frac i : (i < 131)%nat -> zr (en_num bl_list i) / zr (zn_den i) = (4 ^ (i + 1) - 1) * zlim b (i + 1).
Proof.
  intros H. rewrite <- zn_frac by lia. unfold en_num. rewrite BigZ.spec_mul, mult_IZR, BigZ.spec_of_Z, minus_IZR, <- pow_IZR. unfold Rdiv. rewrite Rmult_assoc. reflexivity.
Qed.
Theorem eta_neg_ok i : (i < 109)%nat -> let d := nth i NEG_ETA_NEG_N (0, 0)%Z in let v := (4 ^ (i + 1) - 1) * zlim b (i + 1) in
  Rabs (litR (fst d) (snd d) - v) <= 60 / 10 ^ 18 * Rabs v /\ Rabs (litR (fst d) (snd d)) <= IZR maxd /\ / 1024 <= Rabs (litR (fst d) (snd d)).
Proof.
  intros H d v. pose proof eta_neg_check as C. cbv zeta in C. rewrite forallb_forall in C. specialize (C i ltac:(apply in_seq; lia)). fold d in C.
  apply relck_ok in C; [|apply zn_den_pos]. rewrite en_frac in C by lia. exact C.
Qed.
(** ** growth and signs beyond the tables *)
Lemma zeta_12 n : (34 <= n)%nat -> / 2 <= ReLi n 1 <= 2.
Proof.
  intros H. pose proof (zeta_3terms n H) as T. apply Rabs_le_between in T.
  assert (P : 0 < / 2 ^ n <= / 2 ^ 34) by (split; [apply Rinv_0_lt_compat, pow_lt; lra|apply Rinv_le_contravar; [apply pow_lt; lra|apply Rle_pow; [lra|lia]]]).
  assert (Q : 0 < / 3 ^ n <= / 3 ^ 34) by (split; [apply Rinv_0_lt_compat, pow_lt; lra|apply Rinv_le_contravar; [apply pow_lt; lra|apply Rle_pow; [lra|lia]]]).
  lra.
Qed.
Lemma pm1_sq m : (-1) ^ m * (-1) ^ m = 1.
Proof. rewrite <- Rpow_mult_distr. replace (-1 * -1) with 1 by ring. apply pow1. Qed.
Lemma zlim_euler m : (1 <= m)%nat -> (-1) ^ m * zlim b m = 2 * INR (fact (2 * m)) / INR (2 * m) * ReLi (2 * m) 1 / (2 * PI) ^ (2 * m).
Proof.
  intros H. rewrite (euler b m B H). unfold zlim. pose proof (INR_fact_neq_0 (2 * m)). assert (0 < INR (2 * m)) by (apply lt_0_INR; lia). pose proof PI_RGT_0.
  assert ((2 * PI) ^ (2 * m) <> 0) by (apply pow_nonzero; lra). rewrite <- tech_pow_Rmult. set (p := (2 * PI) ^ (2 * m)) in *. set (f := INR (fact (2 * m))) in *. field. repeat split; lra.
Qed.
Lemma zlim_grow m : (17 <= m)%nat -> 0 < (-1) ^ m * zlim b m <= (-1) ^ S m * zlim b (S m).
Proof.
  intros H. rewrite !zlim_euler by lia. assert (E : INR (fact (2 * S m)) = INR (2 * S m) * INR (2 * m + 1) * INR (fact (2 * m))).
  { replace (2 * S m)%nat with (S (S (2 * m))) by lia. replace (2 * m + 1)%nat with (S (2 * m)) by lia. rewrite <- !mult_INR. f_equal. cbn [fact]. lia. }
  rewrite E. replace ((2 * PI) ^ (2 * S m)) with ((2 * PI) ^ (2 * m) * (2 * PI) ^ 2) by (rewrite <- pow_add; f_equal; lia).
  assert (F : 0 < INR (fact (2 * m))) by apply INR_fact_lt_0. assert (M1 : 34 <= INR (2 * m)) by (replace 34 with (INR 34) by (simpl; ring); apply le_INR; lia).
  assert (M2 : INR (2 * m + 1) = INR (2 * m) + 1) by (rewrite plus_INR; reflexivity). assert (M3 : 0 < INR (2 * S m)) by (apply lt_0_INR; lia).
  pose proof (zeta_12 (2 * m) ltac:(lia)) as Z1. pose proof (zeta_12 (2 * S m) ltac:(lia)) as Z2. assert (PI0 : 0 < PI < 4) by (split; [apply PI_RGT_0|pose proof Consts.PI_dec20; lra]).
  set (p := (2 * PI) ^ (2 * m)). assert (P : 0 < p) by (apply pow_lt; lra). set (f := INR (fact (2 * m))) in *. set (z1 := ReLi (2 * m) 1) in *. set (z2 := ReLi (2 * S m) 1) in *. rewrite M2. set (k := INR (2 * m)) in *. set (k2 := INR (2 * S m)) in *. clearbody p f z1 z2 k k2.
  assert (Q : 0 < (2 * PI) ^ 2 <= 64) by (cbn [pow]; nra). set (q := (2 * PI) ^ 2) in *. clearbody q.
  replace (2 * (k2 * (k + 1) * f) / k2 * z2 / (p * q)) with (2 * f / k / p * ((k + 1) * k * z2 / q)) by (field; lra).
  replace (2 * f / k * z1 / p) with (2 * f / k / p * z1) by (field; lra).
  assert (C : 0 < 2 * f / k / p) by (repeat apply Rdiv_lt_0_compat; lra). split; [apply Rmult_lt_0_compat; lra|]. apply Rmult_le_compat_l; [lra|].
  apply Rle_trans with ((k + 1) * k * z2 / 64).
  - assert (34 * 35 * / 2 <= (k + 1) * k * z2) by (apply Rmult_le_compat; nra). lra.
  - apply Rmult_le_compat_l; [nra|]. apply Rinv_le_contravar; lra.
Qed.
Lemma big_check : (let l := bl_list in
  BigZ.leb (BigZ.mul (bz (2 ^ 1024)) (zn_den 130)) (absb (zn_num l 130)) && BigZ.leb (BigZ.mul (bz (2 ^ 1024)) (zn_den 109)) (absb (en_num l 109)))%bool = true.
Proof. vm_compute. reflexivity. Qed.
Lemma frac_big (u v : bigZ) : BigZ.leb (BigZ.mul (bz (2 ^ 1024)) v) (absb u) = true -> 0 < zr v -> IZR (2 ^ 1024) <= Rabs (zr u / zr v).
Proof.
  intros H P. unfold absb in H. rewrite BigZ.spec_leb, BigZ.spec_mul, BigZ.spec_abs, BigZ.spec_of_Z in H. apply Z.leb_le, IZR_le in H. rewrite mult_IZR, abs_IZR in H.
  unfold Rdiv. rewrite Rabs_mult, (Rabs_pos_eq (/ _)) by (left; apply Rinv_0_lt_compat; exact P). apply (Rmult_le_reg_r (zr v)); [exact P|]. rewrite Rmult_assoc, Rinv_l, Rmult_1_r by lra. exact H.
Qed.
Lemma pm1_abs m r : 0 < (-1) ^ m * r -> (-1) ^ m * r = Rabs r.
Proof. intros H. rewrite <- (Rabs_pos_eq ((-1) ^ m * r)) by lra. rewrite Rabs_mult, pow_1_abs, Rmult_1_l. reflexivity. Qed.
Theorem zlim_big m : (131 <= m)%nat -> IZR (2 ^ 1024) <= (-1) ^ m * zlim b m.
Proof.
  intros H. induction H as [|m Hm IH].
  - destruct (zlim_grow 131 ltac:(lia)) as [P _]. rewrite pm1_abs by exact P. pose proof (andb_prop _ _ big_check) as [C _]. apply frac_big in C; [|apply zn_den_pos]. rewrite zn_frac in C by lia. exact C.
  - destruct (zlim_grow m ltac:(lia)) as [_ G]. lra.
Qed.
Theorem elim_big m : (110 <= m)%nat -> IZR (2 ^ 1024) <= (-1) ^ m * ((4 ^ m - 1) * zlim b m).
Proof.
  intros H. induction H as [|m Hm IH].
  - destruct (zlim_grow 110 ltac:(lia)) as [P _]. assert (4 <= 4 ^ 110) by (pose proof (Rle_pow 4 1 110 ltac:(lra) ltac:(lia)) as R1; lra).
    rewrite pm1_abs by (replace ((-1) ^ 110 * ((4 ^ 110 - 1) * zlim b 110)) with ((4 ^ 110 - 1) * ((-1) ^ 110 * zlim b 110)) by ring; apply Rmult_lt_0_compat; lra).
    pose proof (andb_prop _ _ big_check) as [_ C]. apply frac_big in C; [|apply zn_den_pos]. rewrite en_frac in C by lia. exact C.
  - destruct (zlim_grow m ltac:(lia)) as [G0 G]. replace ((-1) ^ S m * ((4 ^ S m - 1) * zlim b (S m))) with ((4 ^ S m - 1) * ((-1) ^ S m * zlim b (S m))) by ring.
    replace ((-1) ^ m * ((4 ^ m - 1) * zlim b m)) with ((4 ^ m - 1) * ((-1) ^ m * zlim b m)) in IH by ring.
    assert (1 <= 4 ^ m) by (apply pow_R1_Rle; lra). assert (4 ^ m <= 4 ^ S m) by (cbn [pow]; lra). eapply Rle_trans; [exact IH|]. apply Rmult_le_compat; lra.
Qed.
End T.
