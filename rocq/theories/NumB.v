(** * NumB: IEEE-754 binary floating point, rounding to nearest even.

    Flocq's [binary_float prec emax] (one NaN; payload and sign of NaN are not
    modelled).  Decimal literals and fmod are computed exactly and rounded
    once.  The transcendental libm functions are an explicit oracle [libm];
    every theorem that needs something from them says so in a hypothesis. *)
From Coq Require Import ZArith Bool.
From Flocq Require Import Core IEEE754.BinarySingleNaN.
From Verif Require Import Num.
Local Open Scope Z_scope.

Section B.
Variables prec emax : Z.
Context (Hp : Prec_gt_0 prec) (He : Prec_lt_emax prec emax).
Notation fl := (binary_float prec emax).

Record libm : Type := Libm {
  m_log : fl -> fl; m_log1p : fl -> fl; m_sin : fl -> fl; m_cos : fl -> fl; m_exp : fl -> fl;
  m_pow : fl -> fl -> fl; m_hypot : fl -> fl -> fl; m_atan2 : fl -> fl -> fl; m_atan : fl -> fl;
  m_exp2 : fl -> fl; m_tgamma : fl -> fl
}.

Definition bnorm (m e : Z) : fl := binary_normalize prec emax Hp He mode_NE m e false.

(** m * 10^e correctly rounded.  For e < 0 the quotient |m| * 2^k / 10^-e is
    truncated to more than prec + 2 bits and a sticky bit is appended, which
    does not change the rounding. *)
Definition blit (m e : Z) : fl :=
  if 0 <=? e then bnorm (m * 10 ^ e) 0
  else
    let d := 10 ^ (- e) in
    let k := Z.max 0 (Z.log2 d - Z.log2 (Z.abs m) + prec + 4) in
    let a := Z.abs m * 2 ^ k in
    let q := a / d in
    let st := if a mod d =? 0 then 0 else 1 in
    bnorm (Z.sgn m * (2 * q + st)) (- k - 1).

(** C fmod: exact; sign of the first operand; NaN for fmod(inf,_) and fmod(_,0). *)
Definition bfmod (x y : fl) : fl :=
  match x, y with
  | B754_nan, _ | _, B754_nan => B754_nan
  | B754_infinity _, _ => B754_nan
  | _, B754_zero _ => B754_nan
  | _, B754_infinity _ => x
  | B754_zero _, B754_finite _ _ _ _ => x
  | B754_finite sx mx ex _, B754_finite _ my ey _ =>
      let e := Z.min ex ey in
      let a := Zpos mx * 2 ^ (ex - e) in
      let b := Zpos my * 2 ^ (ey - e) in
      let r := Z.rem a b in
      binary_normalize prec emax Hp He mode_NE (if sx then - r else r) e sx
  end.

(** ceil and conversion to an integer *)
Definition bceil_to_Z (x : fl) : option Z :=
  match x with
  | B754_zero _ => Some 0
  | B754_finite s m e _ =>
      let v := if s then Zneg m else Zpos m in
      Some (if 0 <=? e then v * 2 ^ e else - ((- v) / 2 ^ (- e)))
  | _ => None
  end.

Definition NumB (L : libm) : num := {|
  car := fl;
  lit := blit;
  ofZ := fun z => bnorm z 0;
  add := Bplus mode_NE; sub := Bminus mode_NE; mul := Bmult mode_NE; div := Bdiv mode_NE;
  opp := Bopp;
  ltb := Bltb; leb := Bleb; eqb := Beqb;
  isnan := is_nan;
  isinf := fun x => match x with B754_infinity _ => true | _ => false end;
  nan := B754_nan; inf := B754_infinity false;
  eps := bnorm 1 (1 - prec);
  nlog := m_log L; nlog1p := m_log1p L; nsin := m_sin L; ncos := m_cos L; nexp := m_exp L;
  nsqrt := Bsqrt mode_NE; nfmod := bfmod; npow := m_pow L; nhypot := m_hypot L;
  natan2 := m_atan2 L; natan := m_atan L; nexp2 := m_exp2 L; ntgamma := m_tgamma L;
  ceil_to_Z := bceil_to_Z
|}.
End B.

#[global] Instance Hp53 : Prec_gt_0 53 := eq_refl.
#[global] Instance He53 : Prec_lt_emax 53 1024 := eq_refl.
#[global] Instance Hp24 : Prec_gt_0 24 := eq_refl.
#[global] Instance He24 : Prec_lt_emax 24 128 := eq_refl.
#[global] Instance Hp64 : Prec_gt_0 64 := eq_refl.
#[global] Instance He64 : Prec_lt_emax 64 16384 := eq_refl.
#[global] Instance Hp113 : Prec_gt_0 113 := eq_refl.
#[global] Instance He113 : Prec_lt_emax 113 16384 := eq_refl.

(** double, float, x87 long double, IEEE quadruple *)
Notation f64 := (binary_float 53 1024).
Definition B64 (L : libm 53 1024) : num := NumB 53 1024 Hp53 He53 L.
Definition B32 (L : libm 24 128) : num := NumB 24 128 Hp24 He24 L.
Definition B80 (L : libm 64 16384) : num := NumB 64 16384 Hp64 He64 L.
Definition B128 (L : libm 113 16384) : num := NumB 113 16384 Hp113 He113 L.
