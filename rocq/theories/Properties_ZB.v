(** * C50: the complex polylogarithms on the real axis, and the C functions, in IEEE arithmetic

    The complex functions that hand real arguments to the real ones: Li2 in all
    four precisions, Li3 and Li4 in double, in C++ and in C.  For a finite
    float x and either signed zero as imaginary part, over any C library that
    meets [libm_ok]:
    - the real part is the value of the real function, with the error bound
      of C44 and C49;
    - for x <= 1 the imaginary part is the zero that was passed, sign included;
    - for x > 1 it is that of Li_n just below the cut, [ImLi n x] =
      -pi ln(x)^(n-1)/(n-1)!, to a few units in the last place, however close x
      is to 1 and however large it is. *)
From Coq Require Import ZArith Reals Bool Lia Lra Psatz List.
From Coquelicot Require Import Rcomplements.
From Interval Require Import Tactic.
From Flocq Require Import Core Relative IEEE754.BinarySingleNaN.
From Verif Require Import Num NumR NumB NumB_facts Proof_Float Libm Fcalc Polylog Consts Model_LiR Model_LiC Model_C Ieee Li2_ieee Li2_inst Li34_ieee Li_axis_ieee Properties_J Properties_N Properties_T Properties_ZA.
Import ListNotations.
Local Open Scope R_scope.

(** [imag n c prec x w]: what the imaginary part [w] has to be; [s] is the sign of the zero that was passed *)
Definition imag (n : nat) (c : R) (prec emax : Z) (s : bool) (x w : binary_float prec emax) : Prop :=
  (B2R x <= 1 -> w = B754_zero s) /\
  (1 < B2R x -> is_finite w = true /\ Rabs (B2R w - ImLi n (B2R x)) <= c / 2 ^ Z.to_nat prec * Rabs (ImLi n (B2R x))).

Lemma ImLi_gt1 n x : 1 < x -> ImLi n x = - (PI * ln x ^ (n - 1) / INR (fact (n - 1))) /\ Rabs (ImLi n x) = PI * ln x ^ (n - 1) / INR (fact (n - 1)).
Proof.
  intros H. unfold ImLi. destruct (Rle_dec x 1); [lra|]. split; [reflexivity|]. rewrite Rabs_Ropp. apply Rabs_pos_eq.
  assert (0 < ln x) by (rewrite <- ln_1; apply ln_increasing; lra). pose proof PI_RGT_0. unfold Rdiv. apply Rmult_le_pos; [apply Rmult_le_pos; [lra|apply pow_le; lra]|].
  apply Rlt_le, Rinv_0_lt_compat, (lt_INR 0), lt_O_fact.
Qed.
Lemma imag_A n c prec emax s (x w : binary_float prec emax) : (8 < prec)%Z -> 1 < B2R x -> Fcalc.A prec emax w (- (PI * ln (B2R x) ^ (n - 1) / INR (fact (n - 1)))) (c * Fcalc.u prec * (PI * ln (B2R x) ^ (n - 1) / INR (fact (n - 1)))) -> imag n c prec emax s x w.
Proof.
  intros P H [F D]. split; [intros; lra|]. intros _. destruct (ImLi_gt1 n _ H) as [E1 E2]. split; [exact F|]. rewrite E2, E1. replace (c / 2 ^ Z.to_nat prec) with (c * Fcalc.u prec); [exact D|].
  unfold Rdiv, Fcalc.u. f_equal. destruct prec as [|p|p]; try lia. change (- Z.pos p)%Z with (Z.neg p). rewrite bp2. reflexivity.
Qed.
Lemma imag_zero n c prec emax s (x : binary_float prec emax) : B2R x <= 1 -> imag n c prec emax s x (B754_zero s).
Proof. intros H. split; [reflexivity|intros; lra]. Qed.

(** the start of each of the functions *)
Section S.
Variable N : num.
Variables x s : car N.
Hypothesis H0 : eqb N s (lit N 0 0) = true.
Lemma st2f : cLi2_f N (x, s) = if leb N x (lit N 1 0) then (Li2_f N x, s) else (Li2_f N x, mul N (opp N (lit N 314159265 (-8))) (nlog N x)).
Proof. unfold cLi2_f. cbn [fst snd]. cbv zeta. rewrite H0. reflexivity. Qed.
Lemma st2d : cLi2_d N (x, s) = if leb N x (lit N 1 0) then (Li2_d N x, s) else (Li2_d N x, mul N (opp N (lit N 31415926535897932 (-16))) (nlog N x)).
Proof. unfold cLi2_d. cbn [fst snd]. cbv zeta. rewrite H0. reflexivity. Qed.
Lemma st2l : cLi2_l N (x, s) = if leb N x (lit N 1 0) then (Li2_l N x, s) else (Li2_l N x, mul N (opp N (lit N 314159265358979323846264338327950288 (-35))) (nlog N x)).
Proof. unfold cLi2_l. cbn [fst snd]. cbv zeta. rewrite H0. reflexivity. Qed.
Lemma st2q : cLi2_q N (x, s) = if leb N x (lit N 1 0) then (Li2_q N x, s) else (Li2_q N x, mul N (opp N (lit N 314159265358979323846264338327950288 (-35))) (nlog N x)).
Proof. unfold cLi2_q. cbn [fst snd]. cbv zeta. rewrite H0. reflexivity. Qed.
Lemma st3d : cLi3_d N (x, s) = if leb N x (lit N 1 0) then (Li3_d N x, s) else (Li3_d N x, mul N (mul N (mul N (lit N (-5) (-1)) (lit N 31415926535897932 (-16))) (nlog N x)) (nlog N x)).
Proof. unfold cLi3_d. cbn [fst snd]. cbv zeta. rewrite H0. reflexivity. Qed.
Lemma st4d : cLi4_d N (x, s) = if leb N x (lit N 1 0) then (Li4_d N x, s) else (Li4_d N x, mul N (mul N (mul N (mul N (div N (lit N (-1) 0) (lit N 6 0)) (lit N 31415926535897932 (-16))) (nlog N x)) (nlog N x)) (nlog N x)).
Proof. unfold cLi4_d. cbn [fst snd]. cbv zeta. rewrite H0. reflexivity. Qed.
Lemma ct2f : c_cli2_f N (x, s) = if leb N x (lit N 1 0) then (c_li2_f N x, s) else (c_li2_f N x, mul N (opp N (lit N 314159265 (-8))) (nlog N x)).
Proof. unfold c_cli2_f. cbn [fst snd]. cbv zeta. rewrite H0. reflexivity. Qed.
Lemma ct2d : c_cli2_d N (x, s) = if leb N x (lit N 1 0) then (c_li2_d N x, s) else (c_li2_d N x, mul N (opp N (lit N 31415926535897932 (-16))) (nlog N x)).
Proof. unfold c_cli2_d. cbn [fst snd]. cbv zeta. rewrite H0. reflexivity. Qed.
Lemma ct2l : c_cli2_l N (x, s) = if leb N x (lit N 1 0) then (c_li2_l N x, s) else (c_li2_l N x, mul N (opp N (lit N 314159265358979323846264338327950288 (-35))) (nlog N x)).
Proof. unfold c_cli2_l. cbn [fst snd]. cbv zeta. rewrite H0. reflexivity. Qed.
Lemma ct2q : c_cli2_q N (x, s) = if leb N x (lit N 1 0) then (c_li2_q N x, s) else (c_li2_q N x, mul N (opp N (lit N 314159265358979323846264338327950288 (-35))) (nlog N x)).
Proof. unfold c_cli2_q. cbn [fst snd]. cbv zeta. rewrite H0. reflexivity. Qed.
Lemma ct3d : c_cli3_d N (x, s) = if leb N x (lit N 1 0) then (c_li3_d N x, s) else (c_li3_d N x, mul N (mul N (mul N (lit N (-5) (-1)) (lit N 31415926535897932 (-16))) (nlog N x)) (nlog N x)).
Proof. unfold c_cli3_d. cbn [fst snd]. cbv zeta. rewrite H0. reflexivity. Qed.
Lemma ct4d : c_cli4_d N (x, s) = if leb N x (lit N 1 0) then (c_li4_d N x, s) else (c_li4_d N x, mul N (mul N (mul N (mul N (div N (lit N (-1) 0) (lit N 6 0)) (lit N 31415926535897932 (-16))) (nlog N x)) (nlog N x)) (nlog N x)).
Proof. unfold c_cli4_d. cbn [fst snd]. cbv zeta. rewrite H0. reflexivity. Qed.
End S.

(** the constants PI *)
Lemma pi_acc prec emax (Hp : Prec_gt_0 prec) (He : Prec_lt_emax prec emax) (L : libm prec emax) m e : (16 < prec)%Z -> (128 <= emax)%Z -> (prec + 30 <= emax)%Z ->
  Rabs (litR m e - PI) <= Fcalc.u prec / 2 -> Fcalc.A prec emax (lit (NumB prec emax Hp He L) m e) PI (4 * Fcalc.u prec).
Proof.
  intros H1 H2 H3 D. pose proof (gu prec H1) as U. pose proof (geta prec emax H3) as T. assert (P3 : 3.14 <= PI <= 3.15) by (split; interval).
  assert (B : Rabs (litR m e) <= 3.2). { replace (litR m e) with ((litR m e - PI) + PI) by ring. eapply Rle_trans; [apply Rabs_triang|]. rewrite (Rabs_pos_eq PI) by lra. lra. }
  assert (ML : Rabs (round radix2 (SpecFloat.fexp prec emax) ZnearestE (litR m e)) < bpow radix2 emax).
  { apply rnd_lt; try assumption; try lia. apply Rle_trans with (bpow radix2 2); [change (bpow radix2 2) with 4; lra|apply bpow_le; lia]. }
  destruct (blit_correct prec emax Hp He ltac:(lia) m e ML) as [V F]. split; [exact F|]. change (lit (NumB prec emax Hp He L) m e) with (blit prec emax Hp He m e). rewrite V.
  pose proof (rnd_err prec emax Hp (litR m e)) as R. fold (Fcalc.u prec) (Fcalc.eta prec emax) in R. replace (round radix2 (SpecFloat.fexp prec emax) ZnearestE (litR m e) - PI) with ((round radix2 (SpecFloat.fexp prec emax) ZnearestE (litR m e) - litR m e) + (litR m e - PI)) by ring.
  eapply Rle_trans; [apply Rabs_triang|]. assert (Fcalc.u prec * Rabs (litR m e) <= Fcalc.u prec * 3.2) by (apply Rmult_le_compat_l; lra). assert (Fcalc.u prec * Fcalc.u prec <= Fcalc.u prec * / 2 ^ 17) by (apply Rmult_le_compat_l; lra). lra.
Qed.
Lemma PI35 : Rabs (litR 314159265358979323846264338327950288 (-35) - PI) <= / 2 ^ 113 / 8.
Proof. unfold litR. cbn [Z.leb Z.compare Z.opp]. replace (IZR (10 ^ 35)) with (10 ^ 35) by exact (pow_IZR 10 35). apply Rabs_le. split; interval with (i_prec 160). Qed.

Theorem C50_cLi2_float (L : libm 24 128) (x : B32 L) (s : bool) : libm_ok (Hp := Hp24) (He := He24) L -> is_finite x = true ->
  let w := cLi2_f (B32 L) (x, B754_zero s) in
  is_finite (fst w) = true /\ Rabs (B2R (fst w) - ReLi 2 (B2R x)) <= 90 / 2 ^ 24 * size2 (B2R x) + 100 * bpow radix2 (-150) /\
  imag 2 8 24 128 s x (snd w).
Proof.
  intros HL F w. destruct (C44_Li2_float L x HL F) as [G B]. unfold w. rewrite st2f by (apply (eq0 24 128 Hp24 He24 ltac:(lia) L); reflexivity). rewrite (le1 24 128 Hp24 He24 ltac:(lia) L x F : leb (B32 L) x (lit (B32 L) 1 0) = _).
  destruct (Rle_dec (B2R x) 1) as [H|H]; cbn [fst snd]; (split; [exact G|split; [exact B|]]); [apply imag_zero; exact H|].
  apply imag_A; [lia|lra|]. cbn [Nat.sub fact Nat.mul Nat.add INR]. rewrite pow_1. unfold Rdiv. rewrite Rinv_1, Rmult_1_r.
  apply (im2 24 128 Hp24 He24 ltac:(lia) ltac:(lia) ltac:(lia) ltac:(lia) L HL); [|exact F|lra]. apply pi_acc; try lia. rewrite Li2_inst.u_f.
  unfold litR. cbn [Z.leb Z.compare Z.opp]. replace (IZR (10 ^ 8)) with (10 ^ 8) by exact (pow_IZR 10 8). apply Rabs_le. split; interval with (i_prec 80).
Qed.
Theorem C50_cLi2_double (L : libm 53 1024) (x : B64 L) (s : bool) : libm_ok (Hp := Hp53) (He := He53) L -> is_finite x = true ->
  let w := cLi2_d (B64 L) (x, B754_zero s) in
  is_finite (fst w) = true /\ Rabs (B2R (fst w) - ReLi 2 (B2R x)) <= 232 / 2 ^ 53 * size2 (B2R x) + 100 * bpow radix2 (-1075) /\
  imag 2 8 53 1024 s x (snd w).
Proof.
  intros HL F w. destruct (C44_Li2_double L x HL F) as [G B]. unfold w. rewrite st2d by (apply (eq0 53 1024 Hp53 He53 ltac:(lia) L); reflexivity). rewrite (le1 53 1024 Hp53 He53 ltac:(lia) L x F : leb (B64 L) x (lit (B64 L) 1 0) = _).
  destruct (Rle_dec (B2R x) 1) as [H|H]; cbn [fst snd]; (split; [exact G|split; [exact B|]]); [apply imag_zero; exact H|].
  apply imag_A; [lia|lra|]. cbn [Nat.sub fact Nat.mul Nat.add INR]. rewrite pow_1. unfold Rdiv. rewrite Rinv_1, Rmult_1_r.
  apply (im2 53 1024 Hp53 He53 ltac:(lia) ltac:(lia) ltac:(lia) ltac:(lia) L HL); [|exact F|lra]. apply pi_acc; try lia. rewrite Li2_inst.u_d.
  unfold litR. cbn [Z.leb Z.compare Z.opp]. replace (IZR (10 ^ 16)) with (10 ^ 16) by exact (pow_IZR 10 16). apply Rabs_le. split; interval with (i_prec 80).
Qed.
Theorem C50_cLi2_long_double (L : libm 64 16384) (x : B80 L) (s : bool) : libm_ok (Hp := Hp64) (He := He64) L -> is_finite x = true ->
  let w := cLi2_l (B80 L) (x, B754_zero s) in
  is_finite (fst w) = true /\ Rabs (B2R (fst w) - ReLi 2 (B2R x)) <= 208 / 2 ^ 64 * size2 (B2R x) + 100 * bpow radix2 (-16446) /\
  imag 2 8 64 16384 s x (snd w).
Proof.
  intros HL F w. destruct (C44_Li2_long_double L x HL F) as [G B]. unfold w. rewrite st2l by (apply (eq0 64 16384 Hp64 He64 ltac:(lia) L); reflexivity). rewrite (le1 64 16384 Hp64 He64 ltac:(lia) L x F : leb (B80 L) x (lit (B80 L) 1 0) = _).
  destruct (Rle_dec (B2R x) 1) as [H|H]; cbn [fst snd]; (split; [exact G|split; [exact B|]]); [apply imag_zero; exact H|].
  apply imag_A; [lia|lra|]. cbn [Nat.sub fact Nat.mul Nat.add INR]. rewrite pow_1. unfold Rdiv. rewrite Rinv_1, Rmult_1_r.
  apply (im2 64 16384 Hp64 He64 ltac:(lia) ltac:(lia) ltac:(lia) ltac:(lia) L HL); [|exact F|lra]. apply pi_acc; try lia. rewrite Li2_inst.u_l. pose proof PI35. lra.
Qed.
Theorem C50_cLi2_quadruple (L : libm 113 16384) (x : B128 L) (s : bool) : libm_ok (Hp := Hp113) (He := He113) L -> is_finite x = true ->
  let w := cLi2_q (B128 L) (x, B754_zero s) in
  is_finite (fst w) = true /\ Rabs (B2R (fst w) - ReLi 2 (B2R x)) <= 3438 / 2 ^ 113 * size2 (B2R x) + 100 * bpow radix2 (-16495) /\
  imag 2 8 113 16384 s x (snd w).
Proof.
  intros HL F w. destruct (C44_Li2_quadruple L x HL F) as [G B]. unfold w. rewrite st2q by (apply (eq0 113 16384 Hp113 He113 ltac:(lia) L); reflexivity). rewrite (le1 113 16384 Hp113 He113 ltac:(lia) L x F : leb (B128 L) x (lit (B128 L) 1 0) = _).
  destruct (Rle_dec (B2R x) 1) as [H|H]; cbn [fst snd]; (split; [exact G|split; [exact B|]]); [apply imag_zero; exact H|].
  apply imag_A; [lia|lra|]. cbn [Nat.sub fact Nat.mul Nat.add INR]. rewrite pow_1. unfold Rdiv. rewrite Rinv_1, Rmult_1_r.
  apply (im2 113 16384 Hp113 He113 ltac:(lia) ltac:(lia) ltac:(lia) ltac:(lia) L HL); [|exact F|lra]. apply pi_acc; try lia. rewrite Li2_inst.u_q. pose proof PI35. lra.
Qed.
Theorem C50_cLi3_double (L : libm 53 1024) (x : B64 L) (s : bool) : libm_ok (Hp := Hp53) (He := He53) L -> is_finite x = true ->
  let w := cLi3_d (B64 L) (x, B754_zero s) in
  is_finite (fst w) = true /\ Rabs (B2R (fst w) - ReLi 3 (B2R x)) <= 300 / 2 ^ 53 * (Rmin 1 (Rabs (B2R x)) + ln (1 + Rabs (B2R x)) ^ 3) + 100 * bpow radix2 (-1075) /\
  imag 3 15 53 1024 s x (snd w).
Proof.
  intros HL F w. destruct (C49_Li3_double L x HL F) as [G B]. unfold w. rewrite st3d by (apply (eq0 53 1024 Hp53 He53 ltac:(lia) L); reflexivity). rewrite (le1 53 1024 Hp53 He53 ltac:(lia) L x F : leb (B64 L) x (lit (B64 L) 1 0) = _).
  destruct (Rle_dec (B2R x) 1) as [H|H]; cbn [fst snd]; (split; [exact G|split; [exact B|]]); [apply imag_zero; exact H|].
  apply imag_A; [lia|lra|]. change (3 - 1)%nat with 2%nat. change (INR (fact 2)) with 2. apply (im3 L HL); [exact F|lra].
Qed.
Lemma fact3 : INR (fact 3) = 6. Proof. cbn [fact Nat.mul Nat.add INR]. lra. Qed.
Theorem C50_cLi4_double (L : libm 53 1024) (x : B64 L) (s : bool) : libm_ok (Hp := Hp53) (He := He53) L -> is_finite x = true ->
  let w := cLi4_d (B64 L) (x, B754_zero s) in
  is_finite (fst w) = true /\ Rabs (B2R (fst w) - ReLi 4 (B2R x)) <= 3000 / 2 ^ 53 * (Rmin 1 (Rabs (B2R x)) + ln (1 + Rabs (B2R x)) ^ 4) + 100 * bpow radix2 (-1075) /\
  imag 4 25 53 1024 s x (snd w).
Proof.
  intros HL F w. destruct (C49_Li4_double L x HL F) as [G B]. unfold w. rewrite st4d by (apply (eq0 53 1024 Hp53 He53 ltac:(lia) L); reflexivity). rewrite (le1 53 1024 Hp53 He53 ltac:(lia) L x F : leb (B64 L) x (lit (B64 L) 1 0) = _).
  destruct (Rle_dec (B2R x) 1) as [H|H]; cbn [fst snd]; (split; [exact G|split; [exact B|]]); [apply imag_zero; exact H|].
  apply imag_A; [lia|lra|]. change (4 - 1)%nat with 3%nat. rewrite fact3. apply (im4 L HL); [exact F|lra].
Qed.

(** ** The C functions: the real ones everywhere, the complex ones on the real axis *)
Theorem C50_C_real :
  (forall (L : libm 24 128) (x : B32 L), libm_ok (Hp := Hp24) (He := He24) L -> is_finite x = true ->
    is_finite (c_li2_f (B32 L) x) = true /\ Rabs (B2R (c_li2_f (B32 L) x) - ReLi 2 (B2R x)) <= 90 / 2 ^ 24 * size2 (B2R x) + 100 * bpow radix2 (-150)) /\
  (forall (L : libm 53 1024) (x : B64 L), libm_ok (Hp := Hp53) (He := He53) L -> is_finite x = true ->
    is_finite (c_li2_d (B64 L) x) = true /\ Rabs (B2R (c_li2_d (B64 L) x) - ReLi 2 (B2R x)) <= 232 / 2 ^ 53 * size2 (B2R x) + 100 * bpow radix2 (-1075)) /\
  (forall (L : libm 64 16384) (x : B80 L), libm_ok (Hp := Hp64) (He := He64) L -> is_finite x = true ->
    is_finite (c_li2_l (B80 L) x) = true /\ Rabs (B2R (c_li2_l (B80 L) x) - ReLi 2 (B2R x)) <= 208 / 2 ^ 64 * size2 (B2R x) + 100 * bpow radix2 (-16446)) /\
  (forall (L : libm 113 16384) (x : B128 L), libm_ok (Hp := Hp113) (He := He113) L -> is_finite x = true ->
    is_finite (c_li2_q (B128 L) x) = true /\ Rabs (B2R (c_li2_q (B128 L) x) - ReLi 2 (B2R x)) <= 3438 / 2 ^ 113 * size2 (B2R x) + 100 * bpow radix2 (-16495)) /\
  (forall (L : libm 53 1024) (x : B64 L), libm_ok (Hp := Hp53) (He := He53) L -> is_finite x = true ->
    is_finite (c_li3_d (B64 L) x) = true /\ Rabs (B2R (c_li3_d (B64 L) x) - ReLi 3 (B2R x)) <= 300 / 2 ^ 53 * (Rmin 1 (Rabs (B2R x)) + ln (1 + Rabs (B2R x)) ^ 3) + 100 * bpow radix2 (-1075)) /\
  (forall (L : libm 53 1024) (x : B64 L), libm_ok (Hp := Hp53) (He := He53) L -> is_finite x = true ->
    is_finite (c_li4_d (B64 L) x) = true /\ Rabs (B2R (c_li4_d (B64 L) x) - ReLi 4 (B2R x)) <= 3000 / 2 ^ 53 * (Rmin 1 (Rabs (B2R x)) + ln (1 + Rabs (B2R x)) ^ 4) + 100 * bpow radix2 (-1075)).
Proof.
  split; [intros L x HL F; destruct (C36_same_operations (B32 L) x) as (_ & _ & _ & _ & _ & _ & -> & _); exact (C44_Li2_float L x HL F)|].
  split; [intros L x HL F; destruct (C36_same_operations (B64 L) x) as (_ & _ & _ & _ & _ & _ & _ & -> & _); exact (C44_Li2_double L x HL F)|].
  split; [intros L x HL F; rewrite C36_li2l_bits; exact (C44_Li2_long_double L x HL F)|].
  split; [intros L x HL F; rewrite C36_li2q_bits; exact (C44_Li2_quadruple L x HL F)|].
  split; intros L x HL F; destruct (C36_same_operations (B64 L) x) as (_ & _ & _ & _ & _ & _ & _ & _ & E3 & E4); [rewrite E3; exact (C49_Li3_double L x HL F)|rewrite E4; exact (C49_Li4_double L x HL F)].
Qed.
(** the C complex functions agree with the C++ ones bit for bit on the real axis *)
Theorem C50_C_axis_bits :
  (forall (L : libm 24 128) (x : B32 L) s, c_cli2_f (B32 L) (x, B754_zero s) = cLi2_f (B32 L) (x, B754_zero s)) /\
  (forall (L : libm 53 1024) (x : B64 L) s, c_cli2_d (B64 L) (x, B754_zero s) = cLi2_d (B64 L) (x, B754_zero s)) /\
  (forall (L : libm 64 16384) (x : B80 L) s, c_cli2_l (B80 L) (x, B754_zero s) = cLi2_l (B80 L) (x, B754_zero s)) /\
  (forall (L : libm 113 16384) (x : B128 L) s, c_cli2_q (B128 L) (x, B754_zero s) = cLi2_q (B128 L) (x, B754_zero s)) /\
  (forall (L : libm 53 1024) (x : B64 L) s, c_cli3_d (B64 L) (x, B754_zero s) = cLi3_d (B64 L) (x, B754_zero s)) /\
  (forall (L : libm 53 1024) (x : B64 L) s, c_cli4_d (B64 L) (x, B754_zero s) = cLi4_d (B64 L) (x, B754_zero s)).
Proof.
  split; [intros L x s; rewrite ct2f, st2f by (apply (eq0 24 128 Hp24 He24 ltac:(lia) L); reflexivity); destruct (C36_same_operations (B32 L) x) as (_ & _ & _ & _ & _ & _ & -> & _); reflexivity|].
  split; [intros L x s; rewrite ct2d, st2d by (apply (eq0 53 1024 Hp53 He53 ltac:(lia) L); reflexivity); destruct (C36_same_operations (B64 L) x) as (_ & _ & _ & _ & _ & _ & _ & -> & _); reflexivity|].
  split; [intros L x s; rewrite ct2l, st2l by (apply (eq0 64 16384 Hp64 He64 ltac:(lia) L); reflexivity); rewrite C36_li2l_bits; reflexivity|].
  split; [intros L x s; rewrite ct2q, st2q by (apply (eq0 113 16384 Hp113 He113 ltac:(lia) L); reflexivity); rewrite C36_li2q_bits; reflexivity|].
  split; intros L x s; [rewrite ct3d, st3d by (apply (eq0 53 1024 Hp53 He53 ltac:(lia) L); reflexivity)|rewrite ct4d, st4d by (apply (eq0 53 1024 Hp53 He53 ltac:(lia) L); reflexivity)];
  destruct (C36_same_operations (B64 L) x) as (_ & _ & _ & _ & _ & _ & _ & _ & E3 & E4); rewrite ?E3, ?E4; reflexivity.
Qed.
(** hypotheses are met: on both sides of 1, and next to it *)
Example C50_example : libm_ok (Hp := Hp53) (He := He53) (libm_cr 53 1024 Hp53 He53) /\
  (exists x : binary_float 53 1024, is_finite x = true /\ B2R x = 1 / 2) /\ (exists x : binary_float 53 1024, is_finite x = true /\ B2R x = 3).
Proof.
  split; [exact libm_ok_64|]. split.
  - exists (blit 53 1024 Hp53 He53 5 (-1)). destruct (CvsCpp.half_ok 53 1024 Hp53 He53 ltac:(lia)) as [V F]. split; [exact F|]. rewrite V. lra.
  - exists (blit 53 1024 Hp53 He53 3 0). destruct (litZ_exact 53 1024 Hp53 He53 ltac:(lia) 3 ltac:(lia)) as [V F]. split; [exact F|exact V].
Qed.
