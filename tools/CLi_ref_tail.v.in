(** the same integer polynomials, computed with BigZ *)
Fixpoint baddz (a b : list bigZ) : list bigZ := match a, b with [], _ => b | _, [] => a | x :: a', y :: b' => BigZ.add x y :: baddz a' b' end.
Fixpoint bmulz (a b : list bigZ) : list bigZ := match a with [] => [] | x :: a' => baddz (bscal x b) (BigZ.zero :: bmulz a' b) end.
Fixpoint bub (p q : bigZ) (l : list bigZ) : bigZ := match l with [] => BigZ.zero | c :: l' => BigZ.add (BigZ.abs c) (BigZ.add (BigZ.div (BigZ.mul p (bub p q l')) q) BigZ.one) end.
Definition bsubz (a b : list bigZ) : list bigZ := baddz a (bscal (BigZ.of_Z (-1)) b).
Lemma baddz_ok a : forall b, toZ (baddz a b) = addz (toZ a) (toZ b).
Proof. induction a as [|x a IH]; intros [|y b]; try reflexivity. cbn [baddz toZ map addz]. rewrite BigZ.spec_add. f_equal. apply IH. Qed.
Lemma bscalz_ok c a : toZ (bscal c a) = sclz (BigZ.to_Z c) (toZ a).
Proof. unfold toZ, bscal, sclz. rewrite !map_map. apply map_ext. intros x. apply BigZ.spec_mul. Qed.
Lemma bmulz_ok a b : toZ (bmulz a b) = mulz (toZ a) (toZ b).
Proof. induction a as [|x a IH]; [reflexivity|]. cbn [bmulz]. rewrite baddz_ok, bscalz_ok. cbn [toZ map mulz]. fold (toZ b). fold (toZ (bmulz a b)). rewrite IH. reflexivity. Qed.
Lemma bsubz_ok a b : toZ (bsubz a b) = subz (toZ a) (toZ b).
Proof. unfold bsubz, subz. rewrite baddz_ok, bscalz_ok, BigZ.spec_of_Z. reflexivity. Qed.
Lemma bub_ok p q l : BigZ.to_Z (bub p q l) = ub (BigZ.to_Z p) (BigZ.to_Z q) (toZ l).
Proof. induction l as [|c l IH]; [reflexivity|]. cbn [bub toZ map ub]. rewrite BigZ.spec_add, BigZ.spec_abs, BigZ.spec_add, BigZ.spec_div, BigZ.spec_mul, IH. reflexivity. Qed.
Definition bnzl (D : Z) (b : list Z) (M : nat) : list bigZ := let fz := rl 0 M in let F := hd 0%Z fz in let fp := ofZl fz in let BD := BigZ.of_Z D in
  bsubz (baddz (bscal BD (BigZ.zero :: fp)) (bsubz [BigZ.of_Z (D * F)] (bscal BD fp))) (BigZ.zero :: bmulz (bsubz [BigZ.of_Z F] fp) (ofZl b)).
Definition btzl (qa qb : list Z) (M : nat) : list bigZ := let fz := rl 0 M in let F := hd 0%Z fz in let fp := ofZl fz in
  bsubz (bscal (BigZ.of_Z F) (ofZl qa)) (bmulz (bsubz fp [BigZ.of_Z F]) (ofZl (dlz qb))).
Lemma bnzl_ok D b M : toZ (bnzl D b M) = nzl D b M.
Proof.
  unfold bnzl, nzl. cbv zeta. rewrite bsubz_ok, baddz_ok, bscalz_ok, bsubz_ok, bscalz_ok. cbn [toZ map]. fold (toZ (ofZl (rl 0 M))). fold (toZ (bmulz (bsubz [BigZ.of_Z (hd 0%Z (rl 0 M))] (ofZl (rl 0 M))) (ofZl b))).
  rewrite bmulz_ok, bsubz_ok, !toZ_ofZl. cbn [toZ map]. rewrite !BigZ.spec_of_Z. reflexivity.
Qed.
Lemma btzl_ok qa qb M : toZ (btzl qa qb M) = tzl qa qb M.
Proof. unfold btzl, tzl. cbv zeta. rewrite bsubz_ok, bscalz_ok, bmulz_ok, bsubz_ok, !toZ_ofZl. cbn [toZ map]. rewrite !BigZ.spec_of_Z. reflexivity. Qed.
Lemma toZ_tl l : toZ (tl l) = tl (toZ l). Proof. destruct l; reflexivity. Qed.
Fixpoint bzerosb (k : nat) (l : list bigZ) : bool := match k, l with O, _ => true | S k', c :: l' => BigZ.eqb c BigZ.zero && bzerosb k' l' | _, [] => false end.
Lemma bzerosb_ok k : forall l, bzerosb k l = zerosb k (toZ l).
Proof. induction k as [|k IH]; intros [|c l]; try reflexivity. cbn [bzerosb zerosb toZ map]. rewrite BigZ.spec_eqb. f_equal. apply IH. Qed.
Definition chkT (p q : Z) (M : nat) (k : Z) (qa qb : list Z) : bool := let t := btzl qa qb M in let bp := BigZ.of_Z p in let bq := BigZ.of_Z q in
  bzerosb 1 t && BigZ.leb (BigZ.mul (bub bp bq (tl t)) (BigZ.of_Z (10 ^ k)%Z)) (BigZ.of_Z (hd 0 (rl 0 M) * DD)%Z) && BigZ.leb (bub bp bq (ofZl (dlz qb))) (BigZ.of_Z (10 * DD)%Z)
  && (p ^ Z.of_nat M * 10 ^ k <=? q ^ Z.of_nat M * hd 0 (rl 0 (S M)))%Z.
Definition chkN (p q : Z) (M : nat) (k : Z) (b : list Z) : bool := let t := bnzl DD b M in let bp := BigZ.of_Z p in let bq := BigZ.of_Z q in
  bzerosb 2 t && BigZ.leb (BigZ.mul (bub bp bq (tl (tl t))) (BigZ.of_Z (10 ^ k)%Z)) (BigZ.of_Z (hd 0 (rl 0 M) * DD)%Z) && BigZ.leb (bub bp bq (ofZl b)) (BigZ.of_Z (10 * DD)%Z)
  && (p ^ Z.of_nat (M - 1) * 10 ^ k <=? q ^ Z.of_nat (M - 1) * hd 0 (rl 0 (S M)))%Z.
Lemma IZRpow a k : (0 <= k)%Z -> IZR (a ^ k) = IZR a ^ Z.to_nat k.
Proof. intros H. rewrite <- (Z2Nat.id k) at 1 by exact H. rewrite pow_IZR. reflexivity. Qed.
Lemma rho_if p q M m k : (0 < q)%Z -> (0 <= k)%Z -> (p ^ Z.of_nat m * 10 ^ k <=? q ^ Z.of_nat m * hd 0 (rl 0 (S M)))%Z = true ->
  inv_fact (S M) * (IZR p / IZR q) ^ m <= / 10 ^ Z.to_nat k.
Proof.
  intros Hq Hk H. apply Z.leb_le, IZR_le in H. rewrite !mult_IZR, <- rl0_F, !IZRpow, !Nat2Z.id in H by lia. unfold inv_fact.
  assert (Q : 0 < IZR q) by (apply (IZR_lt 0), Hq). assert (QM : 0 < IZR q ^ m) by (apply pow_lt, Q).
  pose proof (INR_fact_lt_0 (S M)) as FP. assert (TP : 0 < 10 ^ Z.to_nat k) by (apply pow_lt; lra).
  unfold Rdiv. rewrite Rpow_mult_distr, pow_inv. set (f := INR (fact (S M))) in *. clearbody f. set (qm := IZR q ^ m) in *. set (t := 10 ^ Z.to_nat k) in *. set (pm := IZR p ^ m) in *. clearbody qm t pm.
  apply Rmult_le_reg_r with (f * qm * t); [repeat apply Rmult_lt_0_compat; assumption|].
  replace (/ f * (pm * / qm) * (f * qm * t)) with (pm * t) by (field; lra). replace (/ t * (f * qm * t)) with (qm * f) by (field; lra). exact H.
Qed.
Lemma ratio_le a b k : (0 <= k)%Z -> 0 < IZR b -> (a * 10 ^ k <=? b)%Z = true -> IZR a / IZR b <= / 10 ^ Z.to_nat k.
Proof.
  intros Hk Hb H. apply Z.leb_le, IZR_le in H. rewrite mult_IZR, IZRpow in H by lia. assert (TP : 0 < 10 ^ Z.to_nat k) by (apply pow_lt; lra).
  apply Rle_div_l; [exact Hb|]. apply Rmult_le_reg_r with (10 ^ Z.to_nat k); [exact TP|]. replace (/ 10 ^ Z.to_nat k * IZR b * 10 ^ Z.to_nat k) with (IZR b) by (field; lra). exact H.
Qed.
Lemma DDpos : 0 < IZR DD. Proof. apply (IZR_lt 0). reflexivity. Qed.
Lemma chkT_ok p q M k qa qb : (0 < q)%Z -> (0 <= p)%Z -> (0 <= k)%Z -> IZR p / IZR q <= 33 / 10 -> chkT p q M k qa qb = true ->
  forall u, Cmod u <= IZR p / IZR q -> Cmod (Cminus (cpev (zl DD qa) u) (Cmult (cpev (dl (zl DD qb)) u) (Cminus (Cexp u) (RtoC 1)))) <= 300 / 10 ^ Z.to_nat k * Cmod u.
Proof.
  intros Hq Hp Hk Hr H u Hu. unfold chkT in H. cbv zeta in H. rewrite bzerosb_ok, btzl_ok, !BigZ.spec_leb, BigZ.spec_mul, !bub_ok, toZ_tl, btzl_ok, toZ_ofZl, !BigZ.spec_of_Z in H. apply andb_prop in H as [H H4]. apply andb_prop in H as [H H3]. apply andb_prop in H as [H1 H2].
  assert (RP := rho_pos p q Hq Hp).
  eapply Rle_trans; [apply (resT_ok p q M DD Hq Hp ltac:(reflexivity) qa qb u H1 Hu)|]. apply Rmult_le_compat_r; [apply Cmod_ge_0|].
  unfold epsT. assert (TP : 0 < / 10 ^ Z.to_nat k) by (apply Rinv_0_lt_compat, pow_lt; lra).
  assert (A : IZR (ub p q (tl (tzl qa qb M))) / (IZR (hd 0%Z (rl 0 M)) * IZR DD) <= / 10 ^ Z.to_nat k).
  { rewrite <- mult_IZR. apply ratio_le; [exact Hk| |exact H2]. rewrite mult_IZR. apply Rmult_lt_0_compat; [apply F_pos|apply DDpos]. }
  assert (B := rho_if p q M M k Hq Hk H4).
  assert (C : IZR (ub p q (dlz qb)) / IZR DD <= 10). { apply Rle_div_l; [apply DDpos|]. apply Z.leb_le, IZR_le in H3. rewrite mult_IZR in H3. exact H3. }
  assert (EX : exp (IZR p / IZR q) <= 28). { eapply Rle_trans; [apply exp_mono, Hr|]. interval. }
  pose proof (exp_pos (IZR p / IZR q)) as EP. set (e := exp (IZR p / IZR q)) in *. clearbody e.
  assert (I0 : 0 <= inv_fact (S M) * (IZR p / IZR q) ^ M) by (apply Rmult_le_pos; [left; apply inv_fact_pos|apply pow_le, RP]).
  assert (E1 : e * (inv_fact (S M) * (IZR p / IZR q) ^ M) <= 28 * / 10 ^ Z.to_nat k) by (apply Rmult_le_compat; lra).
  assert (E0 : 0 <= e * (inv_fact (S M) * (IZR p / IZR q) ^ M)) by (apply Rmult_le_pos; lra).
  set (x := e * (inv_fact (S M) * (IZR p / IZR q) ^ M)) in *. set (y := IZR (ub p q (dlz qb)) / IZR DD) in *. clearbody x y.
  assert (y * x <= 10 * x) by (apply Rmult_le_compat_r; lra). unfold Rdiv in *. lra.
Qed.
Lemma chkN_ok p q M k b : (0 < q)%Z -> (0 <= p)%Z -> (0 <= k)%Z -> (1 <= M)%nat -> IZR p / IZR q <= 33 / 10 -> chkN p q M k b = true ->
  forall w, 0 < snd w <= PI -> Cmod w <= IZR p / IZR q -> Cmod (EU (zl DD b) 0 w) <= 60000 / 10 ^ Z.to_nat k.
Proof.
  intros Hq Hp Hk HM Hr H w Hy Hw. unfold chkN in H. cbv zeta in H. rewrite bzerosb_ok, bnzl_ok, !BigZ.spec_leb, BigZ.spec_mul, !bub_ok, !toZ_tl, bnzl_ok, toZ_ofZl, !BigZ.spec_of_Z in H. apply andb_prop in H as [H H4]. apply andb_prop in H as [H H3]. apply andb_prop in H as [H1 H2].
  assert (RP := rho_pos p q Hq Hp).
  eapply Rle_trans; [apply (EU0_ok p q M DD Hq Hp ltac:(reflexivity) b w HM H1 Hy Hw)|].
  unfold epsN. assert (TP : 0 < / 10 ^ Z.to_nat k) by (apply Rinv_0_lt_compat, pow_lt; lra).
  assert (A : IZR (ub p q (tl (tl (nzl DD b M)))) / (IZR (hd 0%Z (rl 0 M)) * IZR DD) <= / 10 ^ Z.to_nat k).
  { rewrite <- mult_IZR. apply ratio_le; [exact Hk| |exact H2]. rewrite mult_IZR. apply Rmult_lt_0_compat; [apply F_pos|apply DDpos]. }
  assert (B := rho_if p q M (M - 1) k Hq Hk H4).
  assert (C : IZR (ub p q b) / IZR DD <= 10). { apply Rle_div_l; [apply DDpos|]. apply Z.leb_le, IZR_le in H3. rewrite mult_IZR in H3. exact H3. }
  assert (EX : exp (IZR p / IZR q) <= 28). { eapply Rle_trans; [apply exp_mono, Hr|]. interval. }
  pose proof (exp_pos (IZR p / IZR q)) as EP. set (e := exp (IZR p / IZR q)) in *. clearbody e.
  assert (I0 : 0 <= inv_fact (S M) * (IZR p / IZR q) ^ (M - 1)) by (apply Rmult_le_pos; [left; apply inv_fact_pos|apply pow_le, RP]).
  assert (E1 : e * (inv_fact (S M) * (IZR p / IZR q) ^ (M - 1)) <= 28 * / 10 ^ Z.to_nat k) by (apply Rmult_le_compat; lra).
  assert (E0 : 0 <= e * (inv_fact (S M) * (IZR p / IZR q) ^ (M - 1))) by (apply Rmult_le_pos; lra).
  set (x := e * (inv_fact (S M) * (IZR p / IZR q) ^ (M - 1))) in *. set (y := IZR (ub p q b) / IZR DD) in *. set (r := IZR p / IZR q) in *. clearbody x y r.
  assert (Y1 : r * y <= 33). { destruct (Rle_dec 0 y) as [Y0|Y0]; [|assert (0 <= r * - y) by (apply Rmult_le_pos; lra); lra]. assert (r * y <= 33 / 10 * 10) by (apply Rmult_le_compat; lra). lra. }
  assert (Y2 : (r + 1 + r * y) * x <= 38 * x) by (apply Rmult_le_compat_r; lra).
  assert (EPI : e * (PI / 2) <= 28 * 2) by (apply Rmult_le_compat; [lra|pose proof PI_RGT_0; lra|lra|interval]).
  assert (EPI0 : 0 <= e * (PI / 2)) by (apply Rmult_le_pos; [lra|pose proof PI_RGT_0; lra]).
  set (g := e * (PI / 2)) in *. clearbody g. match goal with |- ?A * g <= _ => set (a := A) in * end.
  assert (AL : a <= (1 + 38 * 28) * / 10 ^ Z.to_nat k) by (unfold a, Rdiv in *; lra). clearbody a.
  apply Rle_trans with ((1 + 38 * 28) * / 10 ^ Z.to_nat k * g); [apply Rmult_le_compat_r; assumption|].
  unfold Rdiv. replace ((1 + 38 * 28) * / 10 ^ Z.to_nat k * g) with (((1 + 38 * 28) * g) * / 10 ^ Z.to_nat k) by ring. apply Rmult_le_compat_r; lra.
Qed.
Lemma bz_small : chkN 12 10 40 45 bz = true. Proof. vm_compute. reflexivity. Qed.
Lemma bz_large : chkN 33 10 50 24 bz = true. Proof. vm_compute. reflexivity. Qed.
Lemma qz_ok : forallb (fun n => chkT 11 10 40 44 (qz n) (qz (S n))) [1; 2; 3; 4; 5]%nat = true. Proof. vm_compute. reflexivity. Qed.
(** ** the reference expansions *)
Definition Bu : nat -> list R := IG (zl DD bz).
Definition Qu (n : nat) : list R := zl DD (qz n).
Theorem unity_small n (w : C) : 0 < snd w <= PI -> Cmod w <= 12 / 10 -> Cmod (EU (zl DD bz) n w) <= 60000 / 10 ^ 45 * inv_fact n * (Rabs (fst w) + snd w) ^ n.
Proof.
  intros Hy Hw. destruct w as [s y]. apply (EU_bound (zl DD bz) (12 / 10)); [|exact Hy|exact Hw]. intros s' y' H1 H2.
  apply (chkN_ok 12 10 40 45 bz); [lia|lia|lia|lia|lra|apply bz_small|exact H1|exact H2].
Qed.
Theorem unity_large n (w : C) : 0 < snd w <= PI -> Cmod w <= 33 / 10 -> Cmod (EU (zl DD bz) n w) <= 60000 / 10 ^ 24 * inv_fact n * (Rabs (fst w) + snd w) ^ n.
Proof.
  intros Hy Hw. destruct w as [s y]. apply (EU_bound (zl DD bz) (33 / 10)); [|exact Hy|exact Hw]. intros s' y' H1 H2.
  apply (chkN_ok 33 10 50 24 bz); [lia|lia|lia|lia|lra|apply bz_large|exact H1|exact H2].
Qed.
Theorem T_ref n (z : C) : (1 <= n <= 6)%nat -> good (11 / 10) z -> Cmod (Cminus (CLi n z) (cpev (Qu n) (U z))) <= 3000 / 10 ^ 44 * Cmod z.
Proof.
  intros Hn G. eapply Rle_trans; [apply (T_bound Qu (11 / 10) (300 / 10 ^ 44) 6)|].
  - unfold Qu, zl, qz. cbn [map]. pose proof DDpos. f_equal; [|f_equal]; field; lra.
  - intros k Hk. unfold Qu, zl. do 7 (destruct k as [|k]; [try lia; cbn [qz map hd]; unfold Rdiv; ring|]). lia.
  - apply Rmult_le_pos; [lra|]. left. apply Rinv_0_lt_compat, pow_lt. lra.
  - intros k u Hk Hu. unfold resT, Qu. apply (chkT_ok 11 10 40 44); [lia|lia|lia|lra| |exact Hu].
    pose proof qz_ok as Q. apply forallb_forall with (x := k) in Q; [exact Q|]. do 6 (destruct k as [|k]; [cbn; tauto || lia|]). lia.
  - exact G.
  - exact Hn.
  - apply Rmult_le_compat_r; [apply Cmod_ge_0|]. assert (INR n <= 6) by (replace 6 with (INR 6) by (cbn; ring); apply le_INR; lia).
    assert (0 < / 10 ^ 44) by (apply Rinv_0_lt_compat, pow_lt; lra). unfold Rdiv. replace (2 * (INR n - 1) * (300 * / 10 ^ 44)) with ((600 * (INR n - 1)) * / 10 ^ 44) by ring. apply Rmult_le_compat_r; lra.
Qed.
