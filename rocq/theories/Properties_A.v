(** * Property theorems, part A: integers, NaN, infinities, zeros, parity, dispatch

    [B64 L] is IEEE double arithmetic with math library [L]; [libm_ok L] is the
    contract of the library (Libm.v), met by the correctly rounded library.
    [f64] are the doubles; [Val v] is "the call returns v", [Ub] undefined behaviour. *)
From Coq Require Import ZArith Reals List Bool Lia Lra.
From Flocq Require Import Core IEEE754.BinarySingleNaN.
From Verif Require Import Num Outcome NumR NumB NumB_facts Libm Model_Tables Model_Zeta Model_Cl16 Model_SlPoly Model_Cl
  Model_LiR Model_LiC Model_Li Spec Proof_Int Laws_nan Proof_NaN Proof_Special Proof_Float Proof_Parity Proof_Horner.
Import ListNotations.
Local Open Scope Z_scope.
Local Notation is_finite := BinarySingleNaN.is_finite.

(** the hypothesis [libm_ok] of the theorems below can be met *)
Definition L64 : libm 53 1024 := libm_cr 53 1024 Hp53 He53.
Lemma L64_ok : libm_ok (Hp := Hp53) (He := He53) L64.
Proof. exact libm_ok_64. Qed.

(** ** C04: an index outside a table would be [Ub]; the only undefined behaviour is
    the overflow of C05, so no call reads outside a table, whatever the arithmetic. *)
Theorem C04_zeta_in_bounds (N : num) n : is_int64 n -> n <> INT64_MIN + 1 -> exists v, zeta N n = Val v.
Proof.
  intros I H. destruct (zeta N n) as [v| |] eqn:E; [eauto| |].
  - apply zeta_ub_iff in E; [contradiction|exact I].
  - elim (zeta_fuel N n E).
Qed.
Theorem C04_neg_eta_in_bounds (N : num) n : is_int64 n -> n <> INT64_MIN + 1 -> exists v, neg_eta N n = Val v.
Proof.
  intros I H. destruct (neg_eta N n) as [v| |] eqn:E; [eauto| |].
  - apply neg_eta_ub_iff in E; [contradiction|exact I].
  - elim (neg_eta_fuel N n E).
Qed.
Theorem C04_inv_fac_in_bounds (N : num) n : exists v, inv_fac N n = Val v.
Proof. apply inv_fac_defined. Qed.
(** at the one remaining n the undefined behaviour is the subtraction 1 - n, taken
    only after the index was found outside the table *)
Theorem C04_zeta_no_read_at_min (N : num) :
  zeta N (INT64_MIN + 1) = bind (i64 (1 - (INT64_MIN + 1))) (fun c => if is_even (Z.quot c 2) then Val (inf N) else Val (opp N (inf N))).
Proof. reflexivity. Qed.

(** ** C05 (the unrestricted property is false: the failing arguments, exactly) *)
Theorem C05_zeta_overflow_iff (N : num) n : is_int64 n -> (zeta N n = Ub <-> n = INT64_MIN + 1).
Proof. apply zeta_ub_iff. Qed.
Theorem C05_neg_eta_overflow_iff (N : num) n : is_int64 n -> (neg_eta N n = Ub <-> n = INT64_MIN + 1).
Proof. apply neg_eta_ub_iff. Qed.
Theorem C05_inv_fac_no_overflow (N : num) n : inv_fac N n <> Ub.
Proof. destruct (inv_fac_defined N n) as [v ->]. discriminate. Qed.
Theorem C05_harmonic_overflow_iff (N : num) n : is_int64 n -> (harmonic N n = Ub <-> n = INT64_MAX).
Proof. apply harmonic_ub_iff. Qed.
Example C05_nonvacuous : is_int64 (INT64_MIN + 1) /\ is_int64 INT64_MAX.
Proof. unfold is_int64, INT64_MIN, INT64_MAX. lia. Qed.

(** ** C09: parity, bit for bit.
    [opposite a b]: a = -b, or both are zeros.  [same_outcome P u v]: both calls
    return, with results related by P (or both are undefined). *)
Theorem C09_Cl_even_order L n x : libm_ok (Hp := Hp53) (He := He53) L -> 1 <= n -> is_int64 n -> Z.even n = true ->
  same_outcome opposite (Cl (B64 L) n (Bopp x)) (Cl (B64 L) n x).
Proof. intros H. apply (Cl_parity_even L H). Qed.
Theorem C09_Cl_odd_order L n x : libm_ok (Hp := Hp53) (He := He53) L -> Z.even n = false ->
  Cl (B64 L) n (Bopp x) = Cl (B64 L) n x.
Proof. intros H. apply (Cl_parity_odd L H). Qed.
Theorem C09_Sl_even_order L n x : libm_ok (Hp := Hp53) (He := He53) L -> Z.even n = true ->
  Sl (B64 L) n (Bopp x) = Sl (B64 L) n x.
Proof. intros H. apply (Sl_parity_even L H). Qed.
Theorem C09_Sl_odd_order L n x : libm_ok (Hp := Hp53) (He := He53) L -> 1 <= n -> is_int64 n -> Z.even n = false ->
  same_outcome opposite (Sl (B64 L) n (Bopp x)) (Sl (B64 L) n x).
Proof. intros H. apply (Sl_parity_odd L H). Qed.
(** an argument between 0 and pi: the results are genuinely opposite, not zero *)
Example C09_nonvacuous : exists v, Cl (B64 L64) 2 (blit 53 1024 Hp53 He53 1 0) = Val v.
Proof. eexists. reflexivity. Qed.

(** ** C12: NaN propagates *)
Theorem C12_real_NaN L : libm_ok (Hp := Hp53) (He := He53) L ->
  Forall (fun f : B64 L -> B64 L => f B754_nan = B754_nan)
    [Li2_d (B64 L); Li3_d (B64 L); Li4_d (B64 L); Cl1_d (B64 L); Cl2_d (B64 L); Cl3_d (B64 L);
     Cl4_d (B64 L); Cl5_d (B64 L); Cl6_d (B64 L)].
Proof.
  intros HL. pose proof (NumB_nan_laws 53 1024 Hp53 He53 L (libm_ok_nan L HL)) as K. change (NumB 53 1024 Hp53 He53 L) with (B64 L) in K.
  repeat apply Forall_cons; try apply Forall_nil.
  - apply (Li2_d_nan _ K). - apply (Li3_d_nan _ K). - apply (Li4_d_nan _ K). - apply (Cl1_d_nan _ K). - apply (Cl2_d_nan _ K).
  - apply (Cl3_d_nan _ K). - apply (Cl4_d_nan _ K). - apply (Cl5_d_nan _ K). - apply (Cl6_d_nan _ K).
Qed.
Theorem C12_real_NaN_float L : libm_ok (Hp := Hp24) (He := He24) L -> Li2_f (B32 L) B754_nan = B754_nan.
Proof. intros HL. apply (Li2_f_nan _ (NumB_nan_laws 24 128 Hp24 He24 L (libm_ok_nan L HL))). Qed.
Theorem C12_real_NaN_long L : libm_ok (Hp := Hp64) (He := He64) L ->
  Forall (fun f : B80 L -> B80 L => f B754_nan = B754_nan)
    [Li2_l (B80 L); Cl2_l (B80 L); Cl3_l (B80 L); Cl4_l (B80 L); Cl5_l (B80 L); Cl6_l (B80 L)].
Proof.
  intros HL. pose proof (NumB_nan_laws 64 16384 Hp64 He64 L (libm_ok_nan L HL)) as K. change (NumB 64 16384 Hp64 He64 L) with (B80 L) in K.
  repeat apply Forall_cons; try apply Forall_nil.
  - apply (Li2_l_nan _ K). - apply (Cl2_l_nan _ K).
  - apply (Cl3_l_nan _ K). - apply (Cl4_l_nan _ K). - apply (Cl5_l_nan _ K). - apply (Cl6_l_nan _ K).
Qed.
Theorem C12_real_NaN_quad L : libm_ok (Hp := Hp113) (He := He113) L -> Li2_q (B128 L) B754_nan = B754_nan.
Proof. intros HL. apply (Li2_q_nan _ (NumB_nan_laws 113 16384 Hp113 He113 L (libm_ok_nan L HL))). Qed.
Theorem C12_Cl_NaN L n : libm_ok (Hp := Hp53) (He := He53) L -> is_int64 n -> Cl (B64 L) n B754_nan = Val B754_nan.
Proof.
  intros HL I. apply (Cl_nan (B64 L) (NumB_nan_laws _ _ _ _ L (libm_ok_nan L HL)) n).
  intros H. destruct (kmax_defined L n HL ltac:(lia) I) as (k & -> & _). eauto.
Qed.
Theorem C12_Sl_NaN L n : libm_ok (Hp := Hp53) (He := He53) L -> is_int64 n -> Sl (B64 L) n B754_nan = Val B754_nan.
Proof.
  intros HL I. apply (Sl_nan (B64 L) (NumB_nan_laws _ _ _ _ L (libm_ok_nan L HL)) n).
  intros H. destruct (kmax_defined L n HL ltac:(lia) I) as (k & -> & _). eauto.
Qed.
Theorem C12_Li_NaN L d fuel n (a b : f64) : a = B754_nan \/ b = B754_nan ->
  Li (B64 L) d fuel n (a, b) = Val (B754_nan, B754_nan).
Proof. intros [-> | ->]; apply (Li_nan (B64 L)); [left|right]; reflexivity. Qed.

(** ** C13: infinite arguments *)
Theorem C13_Li_infinite L d fuel n (a b : f64) :
  is_nan a = false -> is_nan b = false -> (exists s, a = B754_infinity s) \/ (exists s, b = B754_infinity s) ->
  Li (B64 L) d fuel n (a, b) = Val (B754_infinity true, B754_zero false).
Proof. apply Li_infinite. Qed.
(** Li2(+inf) and Li3, Li4 at both infinities are -inf.  Li2(-inf) is NaN, not the limit -inf: a defect of the code. *)
Theorem C13_real_infinite L : libm_ok (Hp := Hp53) (He := He53) L ->
  Li2_d (B64 L) (B754_infinity false) = B754_infinity true /\
  (forall s, Li3_d (B64 L) (B754_infinity s) = B754_infinity true) /\
  (forall s, Li4_d (B64 L) (B754_infinity s) = B754_infinity true) /\
  Li2_d (B64 L) (B754_infinity true) = B754_nan.
Proof.
  intros HL. split; [apply (Li2_pinf L HL)|]. split; [|split; [|apply (Li2_ninf L HL)]]; intros []; [apply (Li3_ninf L HL)|apply (Li3_pinf L HL)|apply (Li4_ninf L HL)|apply (Li4_pinf L HL)].
Qed.
Theorem C13_Cl_infinite L n s : libm_ok (Hp := Hp53) (He := He53) L -> is_int64 n -> Cl (B64 L) n (B754_infinity s) = Val B754_nan.
Proof.
  intros HL I. apply (Cl_inf L HL). intros H. destruct (kmax_defined L n HL ltac:(lia) I) as (k & -> & _). eauto.
Qed.
Theorem C13_Sl_infinite L n s : libm_ok (Hp := Hp53) (He := He53) L -> is_int64 n -> Sl (B64 L) n (B754_infinity s) = Val B754_nan.
Proof.
  intros HL I. apply (Sl_inf L HL). intros H. destruct (kmax_defined L n HL ltac:(lia) I) as (k & -> & _). eauto.
Qed.

(** ** C14: signed zeros *)
Theorem C14_real_zero L s : 
  Li2_d (B64 L) (B754_zero s) = B754_zero s /\ Li3_d (B64 L) (B754_zero s) = B754_zero s /\ Li4_d (B64 L) (B754_zero s) = B754_zero s.
Proof. split; [apply Li2_d_zero|split; [apply Li3_d_zero|apply Li4_d_zero]]. Qed.
Theorem C14_real_zero_other_precisions L1 L2 L3 s :
  Li2_f (B32 L1) (B754_zero s) = B754_zero s /\ Li2_l (B80 L2) (B754_zero s) = B754_zero s /\ Li2_q (B128 L3) (B754_zero s) = B754_zero s.
Proof. split; [apply Li2_f_zero|split; [apply Li2_l_zero|apply Li2_q_zero]]. Qed.
Theorem C14_complex_zero L s t : let z := (B754_zero s, B754_zero t) : cpx (B64 L) in
  cLi2_d (B64 L) z = z /\ cLi3_d (B64 L) z = z /\ cLi4_d (B64 L) z = z /\ cLi5_d (B64 L) z = z /\ cLi6_d (B64 L) z = z.
Proof. intros z. split; [apply cLi2_d_zero|]. split; [apply cLi3_d_zero|]. split; [apply cLi4_d_zero|]. split; [apply cLi5_d_zero|apply cLi6_d_zero]. Qed.
Theorem C14_Li_zero L d fuel n s t : Li (B64 L) d fuel n (B754_zero s, B754_zero t) = Val (B754_zero s, B754_zero t).
Proof. apply Li_zero. Qed.
Theorem C14_Cl_even_zero L n s : 1 <= n -> Z.even n = true -> Cl (B64 L) n (B754_zero s) = Val (B754_zero s).
Proof. apply Cl_even_zero. Qed.
Theorem C14_Sl_odd_zero L n s : 1 <= n -> Z.even n = false -> Sl (B64 L) n (B754_zero s) = Val (B754_zero s).
Proof. apply Sl_odd_zero. Qed.

(** ** C23: Horner schemes, exact arithmetic *)
Theorem C23_horner e x (c : list R) : c <> [] -> horner (NumR e) (Some x) (map Some c) = Some (poly c x).
Proof. apply horner_correct. Qed.
Theorem C23_complex_horner e k x y (c : list R) : (k + 2 <= length c)%nat ->
  chorner (NumR e) k (Some x, Some y) (map Some c) = (Some (fst (cpoly (skipn k c) (x, y))), Some (snd (cpoly (skipn k c) (x, y)))).
Proof. apply chorner_correct. Qed.
Example C23_nonvacuous : (2 + 2 <= length [1; 2; 3; 4; 5]%R)%nat.
Proof. cbn. lia. Qed.

(** ** C28: special points and dispatch of Li(n,z) *)
Definition one64 : f64 := blit 53 1024 Hp53 He53 1 0.
Definition mone64 : f64 := blit 53 1024 Hp53 He53 (-1) 0.
Theorem C28_at_one L d fuel n s :
  Li (B64 L) d fuel n (one64, B754_zero s) =
  if n <=? 0 then Val (B754_infinity false, B754_infinity false) else bind (zeta (B64 L) n) (fun v => Val (v, B754_zero s)).
Proof. apply (Li_at_one (B64 L)); try (vm_compute; reflexivity); destruct s; vm_compute; reflexivity. Qed.
Theorem C28_at_minus_one L d fuel n s :
  Li (B64 L) d fuel n (mone64, B754_zero s) = bind (neg_eta (B64 L) n) (fun v => Val (v, B754_zero s)).
Proof. apply (Li_at_minus_one (B64 L)); try (vm_compute; reflexivity); destruct s; vm_compute; reflexivity. Qed.
Theorem C28_at_zero L d fuel n s t : Li (B64 L) d fuel n (B754_zero s, B754_zero t) = Val (B754_zero s, B754_zero t).
Proof. apply Li_zero. Qed.
Theorem C28_dispatch L d fuel n (a b : f64) :
  is_finite a = true -> is_finite b = true ->
  ~ (exists s, b = B754_zero s /\ (a = one64 \/ a = mone64 \/ exists t, a = B754_zero t)) -> 2 <= n <= 6 ->
  Li (B64 L) d fuel n (a, b) = Val (if n =? 2 then cLi2_d (B64 L) (a, b) else if n =? 3 then cLi3_d (B64 L) (a, b)
    else if n =? 4 then cLi4_d (B64 L) (a, b) else if n =? 5 then cLi5_d (B64 L) (a, b) else cLi6_d (B64 L) (a, b)).
Proof.
  intros A B C Hn. apply (Li_dispatch (B64 L)); [|exact Hn].
  assert (Hz : forall x : f64, is_finite x = true -> isnan (B64 L) x = false /\ isinf (B64 L) x = false)
    by (intros x Hx; destruct x; try discriminate Hx; split; reflexivity).
  assert (EQ : forall x c : f64, is_finite c = true -> is_finite_strict c = true -> eqb (B64 L) x c = true -> x = c).
  { intros x c Hc Hs Hx. change (Beqb x c = true) in Hx.
    assert (Hf : is_finite x = true) by (destruct x as [| [] | |], c as [| [] | |]; try discriminate Hc; try discriminate Hs; try discriminate Hx; reflexivity).
    rewrite Beqb_correct in Hx by assumption. apply Req_bool_true_inv in Hx || apply (fun H => Req_bool_true _ _) in Hx || idtac.
    assert (HR : B2R x = B2R c). { revert Hx. case Req_bool_spec; [auto|discriminate]. }
    destruct x as [sx| | |sx mx ex Bx], c as [sc| | |sc mc ec Bc]; try discriminate Hc; try discriminate Hf; try discriminate Hs.
    - exfalso. cbn in HR. symmetry in HR. apply eq_0_F2R in HR. destruct sc; discriminate HR.
    - apply B2R_inj; auto. }
  assert (ZZ : forall x : f64, eqb (B64 L) x (lit (B64 L) 0 0) = true -> exists s, x = B754_zero s) by apply (eqb_iszero L).
  destruct (Hz a A) as [A1 A2]. destruct (Hz b B) as [B1 B2].
  repeat split; auto; intros; match goal with |- ?e = false => destruct e eqn:E; [exfalso|reflexivity] end;
   apply C; destruct (ZZ _ H) as [s Hs]; exists s; (split; [exact Hs|]).
  - right; right. apply ZZ. exact E.
  - left. apply EQ; auto; vm_compute; reflexivity.
  - right; left. apply EQ; auto; vm_compute; reflexivity.
Qed.

(** ** C35: domain errors *)
Theorem C35_Cl_domain (N : num) n x : n < 1 -> Cl N n x = Val (nan N).
Proof. intros H. unfold Cl. destruct (Z.ltb_spec n 1); [reflexivity|lia]. Qed.
Theorem C35_Sl_domain (N : num) n x : n < 1 -> Sl N n x = Val (nan N).
Proof. intros H. unfold Sl. destruct (Z.ltb_spec n 1); [reflexivity|lia]. Qed.
(** for n >= 1 the call is defined: it returns a value whatever x is *)
Theorem C35_Cl_defined L n (x : f64) : libm_ok (Hp := Hp53) (He := He53) L -> is_int64 n -> exists v, Cl (B64 L) n x = Val v.
Proof.
  intros HL I. destruct (Z.ltb_spec n 1) as [H|H]; [rewrite C35_Cl_domain by exact H; eauto|].
  destruct (kmax_defined L n HL H I) as (k & Hk & _).
  unfold Cl. destruct (Z.ltb_spec n 1); [lia|].
  repeat match goal with |- exists v, (if ?n =? ?k then Val _ else _) = _ => destruct (Z.eqb_spec n k); [eauto|] end.
  destruct (Cl_range_reduce (B64 L) n x) as [sg y].
  match goal with |- exists v, (if ?c then Val _ else _) = _ => destruct c; [eauto|] end.
  match goal with |- exists v, (if ?c then Val _ else _) = _ => destruct c; [eauto|] end.
  unfold N_THRESH. destruct (Z.leb_spec n 9).
  - destruct (zref_defined (inverse_factorial (B64 L)) (n - 1)) as [f1 ->]. { change (Z.of_nat (length (inverse_factorial (B64 L)))) with 9. lia. }
    destruct (zref_defined (inverse_factorial (B64 L)) (n - 2)) as [f2 ->]. { change (Z.of_nat (length (inverse_factorial (B64 L)))) with 9. lia. }
    cbn [bind]. destruct (pcal_defined (B64 L) n y ltac:(lia)) as [pc ->]. cbn [bind].
    destruct (nsum_defined (B64 L) n y ltac:(lia)) as [ns ->]. cbn [bind]. eauto.
  - unfold cl_series, sin_series, cos_series. rewrite Hk. destruct (is_even n); cbn [bind]; eauto.
Qed.
Theorem C35_Sl_defined L n (x : f64) : libm_ok (Hp := Hp53) (He := He53) L -> is_int64 n -> exists v, Sl (B64 L) n x = Val v.
Proof.
  intros HL I. destruct (Z.ltb_spec n 1) as [H|H]; [rewrite C35_Sl_domain by exact H; eauto|].
  destruct (kmax_defined L n HL H I) as (k & Hk & _).
  unfold Sl. destruct (Z.ltb_spec n 1); [lia|].
  destruct (Sl_range_reduce (B64 L) n x) as [sg y].
  match goal with |- exists v, (if ?c then Val _ else _) = _ => destruct c; [eauto|] end.
  destruct (Sl_poly (B64 L) n); [eauto|].
  unfold sl_series, sin_series, cos_series. rewrite Hk. destruct (is_even n); cbn [bind]; eauto.
Qed.
