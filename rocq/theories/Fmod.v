(** * fmod and the range reduction of the Clausen functions in IEEE arithmetic, any precision *)
From Coq Require Import ZArith Reals Bool Lia Lra Psatz List.
From Coquelicot Require Import Rcomplements.
From Flocq Require Import Core Relative Sterbenz IEEE754.BinarySingleNaN.
From Verif Require Import Num NumR NumB NumB_facts Proof_Float Libm Cl_full.
Local Open Scope R_scope.

Section F.
Variables prec emax : Z.
Context (Hp : Prec_gt_0 prec) (He : Prec_lt_emax prec emax).
Hypothesis prec1 : (1 < prec)%Z.
Notation fl := (binary_float prec emax).
Notation emin := (3 - emax - prec)%Z.
Notation fexp := (SpecFloat.fexp prec emax).
Notation rnd := (round radix2 fexp ZnearestE).

Lemma F2R_pow m e k : (k <= e)%Z -> F2R (Float radix2 m e) = IZR (m * 2 ^ (e - k)) * bpow radix2 k.
Proof.
  intros H. unfold F2R. cbn [Fnum Fexp]. rewrite mult_IZR. rewrite (IZR_Zpower radix2) by lia. rewrite Rmult_assoc, <- bpow_plus. do 2 f_equal. lia.
Qed.
(** fmod is exact *)
Theorem bfmod_exact (x y : fl) : is_finite x = true -> is_finite y = true -> 0 <= B2R x -> 0 < B2R y ->
  is_finite (bfmod prec emax Hp He x y) = true /\ B2R (bfmod prec emax Hp He x y) = B2R x - B2R y * IZR (Ztrunc (B2R x / B2R y)).
Proof.
  intros Fx Fy Px Py. destruct x as [sx|sx| |sx mx ex Bx]; [|discriminate|discriminate|]; destruct y as [sy|sy| |sy my ey By]; try discriminate; try (cbn [B2R] in Py; lra).
  - cbn [bfmod]. split; [reflexivity|]. cbn [B2R]. unfold Rdiv. rewrite Rmult_0_l, Ztrunc_IZR. ring.
  - assert (Sx : sx = false) by (destruct sx; [|reflexivity]; cbn [B2R cond_Zopp] in Px; pose proof (F2R_lt_0 radix2 (Float radix2 (Zneg mx) ex) ltac:(reflexivity)); cbn in *; lra).
    assert (Sy : sy = false) by (destruct sy; [|reflexivity]; cbn [B2R cond_Zopp] in Py; pose proof (F2R_lt_0 radix2 (Float radix2 (Zneg my) ey) ltac:(reflexivity)); cbn in *; lra).
    subst sx sy. cbn [bfmod]. set (e := Z.min ex ey). set (a := (Zpos mx * 2 ^ (ex - e))%Z). set (b := (Zpos my * 2 ^ (ey - e))%Z).
    assert (a0 : (0 < a)%Z) by (apply Z.mul_pos_pos; [lia|apply Z.pow_pos_nonneg; lia]). assert (b0 : (0 < b)%Z) by (apply Z.mul_pos_pos; [lia|apply Z.pow_pos_nonneg; lia]).
    rewrite Z.rem_mod_nonneg by lia. set (r := (a mod b)%Z).
    assert (r0 : (0 <= r < b)%Z) by (apply Z.mod_pos_bound; lia). assert (ra : (r <= a)%Z) by (apply Z.mod_le; lia).
    assert (Vx : B2R (B754_finite false mx ex Bx) = IZR a * bpow radix2 e) by (cbn [B2R cond_Zopp]; apply F2R_pow; lia).
    assert (Vy : B2R (B754_finite false my ey By) = IZR b * bpow radix2 e) by (cbn [B2R cond_Zopp]; apply F2R_pow; lia).
    assert (BP : forall (m : positive) k, SpecFloat.bounded prec emax m k = true -> (Zpos m < 2 ^ prec)%Z /\ (emin <= k)%Z /\ (k <= emax - prec)%Z).
    { intros m k B. apply andb_prop in B. destruct B as [B1 B2]. apply Z.leb_le in B2. pose proof B1 as C1. apply Zeq_bool_eq in B1.
      pose proof (Hp : (0 < prec)%Z). split; [|split; [|exact B2]].
      - rewrite Digits.Zpos_digits2_pos in B1. unfold SpecFloat.fexp, SpecFloat.emin in B1.
        apply (Digits.Zpower_gt_Zdigits radix2 prec (Zpos m)). lia.
      - unfold SpecFloat.fexp, SpecFloat.emin in B1. lia. }
    destruct (BP _ _ Bx) as (X1 & X2 & X3). destruct (BP _ _ By) as (Y1 & Y2 & Y3).
    assert (rb : (r < 2 ^ prec)%Z).
    { destruct (Z.le_gt_cases ex ey).
      - assert (a = Zpos mx) by (unfold a, e; rewrite Z.min_l by lia; rewrite Z.sub_diag, Z.pow_0_r; lia). lia.
      - assert (b = Zpos my) by (unfold b, e; rewrite Z.min_r by lia; rewrite Z.sub_diag, Z.pow_0_r; lia). lia. }
    assert (em : (emin <= e)%Z) by lia.
    assert (FM : generic_format radix2 fexp (F2R (Float radix2 r e))).
    { assert (FF : generic_format radix2 (FLT_exp emin prec) (F2R (Float radix2 r e))).
      { apply generic_format_FLT. exists (Float radix2 r e); [reflexivity| |exact em]. cbn [Fnum]. change (Zpower radix2 prec) with (2 ^ prec)%Z. lia. }
      apply generic_inclusion_mag with (2 := FF). intros _. rewrite (fexp_FLT prec emax). lia. }
    assert (SM : Rabs (F2R (Float radix2 r e)) < bpow radix2 emax).
    { rewrite Rabs_pos_eq by (apply F2R_ge_0; cbn; lia). unfold F2R. cbn [Fnum Fexp]. apply Rlt_le_trans with (bpow radix2 prec * bpow radix2 e).
      - apply Rmult_lt_compat_r; [apply bpow_gt_0|]. rewrite <- (IZR_Zpower radix2) by lia. apply IZR_lt. exact rb.
      - rewrite <- bpow_plus. apply bpow_le. lia. }
    pose proof (binary_normalize_correct prec emax Hp He mode_NE r e false) as C. cbn [round_mode] in C. rewrite round_generic in C by (try apply valid_rnd_N; exact FM).
    rewrite Rlt_bool_true in C by exact SM. destruct C as (C1 & C2 & _). split; [exact C2|]. rewrite C1, Vx, Vy.
    assert (BE : 0 < bpow radix2 e) by apply bpow_gt_0. assert (BR : 0 < IZR b) by (apply IZR_lt; exact b0).
    assert (Q : Ztrunc (IZR a * bpow radix2 e / (IZR b * bpow radix2 e)) = (a / b)%Z).
    { replace (IZR a * bpow radix2 e / (IZR b * bpow radix2 e)) with (IZR a / IZR b) by (field; lra).
      rewrite Ztrunc_floor by (apply Rdiv_le_0_compat; [apply IZR_le; lia|exact BR]). apply Zfloor_div. lia. }
    rewrite Q. unfold F2R. cbn [Fnum Fexp]. unfold r. rewrite Z.mod_eq by lia. rewrite minus_IZR, mult_IZR. ring.
Qed.
End F.

Section Fred.
Variables prec emax : Z.
Context (Hp : Prec_gt_0 prec) (He : Prec_lt_emax prec emax).
Hypothesis prec1 : (8 < prec)%Z.
Hypothesis em4 : (prec + 4 < emax)%Z.
Notation fl := (binary_float prec emax).
Notation emin := (3 - emax - prec)%Z.
Notation fexp := (SpecFloat.fexp prec emax).
Notation rnd := (round radix2 fexp ZnearestE).
Variable L : libm prec emax.
Notation N := (NumB prec emax Hp He L).

(** what the literals PI, 2*PI, 6.28125 and p1 are in this precision *)
Variables PIf P2f p0f p1f : fl.
Notation w := (bpow radix2 (2 - prec)).
Record consts_ok : Prop := {
  c_fin : is_finite PIf = true /\ is_finite P2f = true /\ is_finite p0f = true /\ is_finite p1f = true;
  c_P2 : B2R P2f = 2 * B2R PIf;
  c_p0 : B2R p0f = 201 / 32;
  c_P : 3.1411 < B2R PIf < 3.1419;
  c_mul : exists k : Z, B2R PIf = IZR k * w;
  c_lo : 2 * B2R PIf - 2 * w <= 201 / 32 + B2R p1f;
  c_hi : 201 / 32 + B2R p1f < 2 * B2R PIf + 3 / 2 * w;
  c_p1 : 0 < B2R p1f < / 256
}.
Hypothesis CK : consts_ok.
Notation P := (B2R PIf).
Notation S := (201 / 32 + B2R p1f).

Lemma w_small : 0 < w <= / 128.
Proof. split; [apply bpow_gt_0|]. apply Rle_trans with (bpow radix2 (-7)); [apply bpow_le; lia|]. right. cbn. lra. Qed.
Lemma fmt (x : fl) : generic_format radix2 fexp (B2R x). Proof. apply generic_format_B2R. Qed.
(** floats in [2^k, 8) are multiples of 2^(k+1-prec) *)
Lemma mult_of (x : fl) k : (-1 <= k <= 4)%Z -> bpow radix2 k <= B2R x -> exists m : Z, B2R x = IZR m * bpow radix2 (k + 1 - prec).
Proof.
  intros Hk H. pose proof (fmt x) as F. unfold generic_format in F. set (m := Ztrunc (scaled_mantissa radix2 fexp (B2R x))) in *. unfold F2R in F. cbn [Fnum Fexp] in F.
  assert (M : (k + 1 <= mag_val radix2 _ (Core.Raux.mag radix2 (B2R x)))%Z). { apply mag_ge_bpow. rewrite Rabs_pos_eq by (pose proof (bpow_gt_0 radix2 k); lra). replace (k + 1 - 1)%Z with k by ring. exact H. }
  assert (C : (k + 1 - prec <= cexp radix2 fexp (B2R x))%Z). { unfold cexp. rewrite (fexp_FLT prec emax). unfold FLT_exp. lia. }
  exists (m * 2 ^ (cexp radix2 fexp (B2R x) - (k + 1 - prec)))%Z. rewrite F at 1. rewrite mult_IZR.
  assert (E : IZR (2 ^ (cexp radix2 fexp (B2R x) - (k + 1 - prec))) = bpow radix2 (cexp radix2 fexp (B2R x) - (k + 1 - prec))) by (apply (IZR_Zpower radix2); lia).
  rewrite E, Rmult_assoc, <- bpow_plus. do 2 f_equal. lia.
Qed.
Lemma gap_hi (b : fl) : P < B2R b -> P + w <= B2R b.
Proof.
  intros H. pose proof (c_P CK) as HP. pose proof w_small as W. destruct (c_mul CK) as [k K]. destruct (mult_of b 1 ltac:(lia)) as [m M]; [cbn; lra|].
  replace (1 + 1 - prec)%Z with (2 - prec)%Z in M by ring. rewrite K, M in *. assert (IZR k < IZR m) by nra. apply lt_IZR in H0. assert (k + 1 <= m)%Z by lia. apply IZR_le in H1. rewrite plus_IZR in H1. nra.
Qed.
Lemma gap_lo (b : fl) : B2R b < 2 * P -> B2R b <= 2 * P - 2 * w.
Proof.
  intros H. pose proof (c_P CK) as HP. pose proof w_small as W. destruct (Rlt_dec (B2R b) 4); [lra|]. destruct (c_mul CK) as [k K]. destruct (mult_of b 2 ltac:(lia)) as [m M]; [cbn; lra|].
  assert (E : bpow radix2 (2 + 1 - prec) = 2 * w) by (replace (2 + 1 - prec)%Z with (1 + (2 - prec))%Z by ring; rewrite bpow_plus; reflexivity).
  rewrite E in M. rewrite K, M in *. assert (IZR m < IZR k) by nra. apply lt_IZR in H0. assert (m + 1 <= k)%Z by lia. apply IZR_le in H1. rewrite plus_IZR in H1. nra.
Qed.
Lemma red_abs (x : fl) : is_finite x = true ->
  is_finite (if Bltb x (blit prec emax Hp He 0 0) then Bopp x else x) = true /\ B2R (if Bltb x (blit prec emax Hp He 0 0) then Bopp x else x) = Rabs (B2R x).
Proof.
  intros Fx. destruct (litZ_exact prec emax Hp He ltac:(lia) 0) as [Z0 Z1]; [cbn; lia|]. rewrite (Bltb_correct _ _ x _ Fx Z1), Z0. destruct (Rlt_bool_spec (B2R x) (IZR 0)).
  - rewrite is_finite_Bopp, B2R_Bopp. split; [exact Fx|]. rewrite Rabs_left; lra.
  - split; [exact Fx|]. rewrite Rabs_pos_eq; lra.
Qed.
Lemma red_mod (x a : fl) : is_finite a = true -> B2R a = Rabs (B2R x) ->
  is_finite (if Bleb P2f a then bfmod prec emax Hp He a P2f else a) = true /\
  B2R (if Bleb P2f a then bfmod prec emax Hp He a P2f else a) = redb P (B2R x).
Proof.
  intros Fa A. destruct (c_fin CK) as (F1 & F2 & _). pose proof (c_P CK) as HP. rewrite (Bleb_correct _ _ P2f a F2 Fa), (c_P2 CK). unfold redb, redk. rewrite <- A.
  destruct (Rle_bool_spec (2 * P) (B2R a)) as [Q|Q]; destruct (Rle_dec (2 * P) (B2R a)) as [Q'|Q']; try lra.
  - destruct (bfmod_exact prec emax Hp He ltac:(lia) a P2f Fa F2) as [G1 G2]; [lra|rewrite (c_P2 CK); lra|]. split; [exact G1|]. rewrite G2, (c_P2 CK). reflexivity.
  - split; [exact Fa|]. ring.
Qed.
Lemma red_fold (b : fl) : is_finite b = true -> 0 <= B2R b < 2 * P ->
  let c := if Bltb PIf b then Bplus mode_NE (Bminus mode_NE p0f b) p1f else b in
  is_finite c = true /\ 0 <= B2R c <= P /\ B2R c = if Rlt_dec P (B2R b) then rnd (S - B2R b) else B2R b.
Proof.
  intros Fb Hb. cbv zeta. destruct (c_fin CK) as (F1 & F2 & F0 & Fp1). pose proof (c_P CK) as HP. pose proof w_small as W. pose proof (c_p1 CK) as HP1.
  rewrite (Bltb_correct _ _ PIf b F1 Fb). destruct (Rlt_bool_spec P (B2R b)) as [Q|Q]; destruct (Rlt_dec P (B2R b)) as [Q'|Q']; try lra.
  - pose proof (gap_hi b Q) as GH. pose proof (gap_lo b (proj2 Hb)) as GL. pose proof (c_lo CK) as CL. pose proof (c_hi CK) as CH.
    assert (VE : Valid_exp fexp) by apply (fexp_correct prec emax Hp).
    assert (MN : Monotone_exp fexp) by apply fexp_monotone.
    assert (ST : generic_format radix2 fexp (B2R p0f - B2R b)).
    { apply sterbenz; [exact VE|exact MN|apply fmt|apply fmt|]. rewrite (c_p0 CK). lra. }
    assert (SR : rnd (B2R p0f - B2R b) = B2R p0f - B2R b) by (apply round_generic; [apply valid_rnd_N|exact ST]).
    assert (BIG : forall v, Rabs v <= 8 -> Rabs (rnd v) < bpow radix2 emax).
    { intros v Hv. apply (rnd_small prec emax Hp He ltac:(lia)). eapply Rle_trans; [exact Hv|]. change 8 with (bpow radix2 3). apply bpow_le. lia. }
    destruct (Bminus_ok prec emax Hp He p0f b F0 Fb) as [M1 M2]. { apply BIG. rewrite (c_p0 CK). apply Rabs_le. lra. }
    rewrite SR in M1.
    destruct (Bplus_ok prec emax Hp He (Bminus mode_NE p0f b) p1f M2 Fp1) as [A1 A2]. { apply BIG. rewrite M1, (c_p0 CK). apply Rabs_le. lra. }
    rewrite M1, (c_p0 CK) in A1. replace (201 / 32 - B2R b + B2R p1f) with (S - B2R b) in A1 by ring.
    split; [exact A2|]. split; [|exact A1]. rewrite A1. split.
    + rewrite <- (round_0 radix2 fexp ZnearestE). apply round_le; [exact VE|apply valid_rnd_N|]. lra.
    + assert (UL : ulp radix2 fexp P = w).
      { rewrite ulp_neq_0 by lra. f_equal. unfold cexp. rewrite (mag_unique_pos radix2 P 2) by (cbn; lra). rewrite (fexp_FLT prec emax). unfold FLT_exp. lia. }
      assert (SU : succ radix2 fexp P = P + w). { rewrite succ_eq_pos by lra. rewrite UL. reflexivity. }
      apply (round_N_le_midp radix2 fexp (fun x => negb (Z.even x)) P); [apply fmt|]. rewrite SU. lra.
  - split; [exact Fb|]. split; [lra|reflexivity].
Qed.
End Fred.
