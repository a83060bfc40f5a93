(** * NumR: exact real arithmetic with a poison value.

    [None] is poison: division by zero, logarithm or square root outside the
    domain, NaN and infinity.  A theorem that concludes [f (Some x) = Some v]
    therefore also says that no such operation happens on the way.
    Decimal literals denote their exact decimal value, the libm functions the
    real functions. *)
From Coq Require Import ZArith Reals Bool.
From Flocq Require Import Core.Raux.
From Verif Require Import Num.
Local Open Scope R_scope.

Definition lift1 (f : R -> R) (a : option R) : option R :=
  match a with Some x => Some (f x) | None => None end.
Definition lift2 (f : R -> R -> R) (a b : option R) : option R :=
  match a, b with Some x, Some y => Some (f x y) | _, _ => None end.

Definition litR (m e : Z) : R :=
  if (0 <=? e)%Z then IZR (m * 10 ^ e) else IZR m / IZR (10 ^ (- e)).

Definition odiv (a b : option R) : option R :=
  match a, b with
  | Some x, Some y => if Req_EM_T y 0 then None else Some (x / y)
  | _, _ => None
  end.
Definition olog (a : option R) : option R :=
  match a with Some x => if Rlt_dec 0 x then Some (ln x) else None | None => None end.
Definition olog1p (a : option R) : option R :=
  match a with Some x => if Rlt_dec (-1) x then Some (ln (1 + x)) else None | None => None end.
Definition osqrt (a : option R) : option R :=
  match a with Some x => if Rle_dec 0 x then Some (R_sqrt.sqrt x) else None | None => None end.
(** fmod(x,y) = x - y * trunc(x/y) *)
Definition ofmod (a b : option R) : option R :=
  match a, b with
  | Some x, Some y => if Req_EM_T y 0 then None else Some (x - y * IZR (Ztrunc (x / y)))
  | _, _ => None
  end.
(** pow(x,y): x > 0, or integer exponent (0^y only for y >= 0) *)
Definition opow (a b : option R) : option R :=
  match a, b with
  | Some x, Some y =>
      if Rlt_dec 0 x then Some (Rpower x y)
      else if Req_EM_T y (IZR (Zfloor y)) then
        if Req_EM_T x 0 then
          (if Rlt_dec 0 y then Some 0 else if Req_EM_T y 0 then Some 1 else None)
        else Some (powerRZ x (Zfloor y))
      else None
  | _, _ => None
  end.
(** the principal argument of x + i y, in (-pi, pi]; atan2(0,0) = 0 *)
Definition atan2R (y x : R) : R :=
  if Rlt_dec 0 x then atan (y / x)
  else if Rlt_dec x 0 then (if Rle_dec 0 y then atan (y / x) + PI else atan (y / x) - PI)
  else if Rlt_dec 0 y then PI / 2
  else if Rlt_dec y 0 then - (PI / 2)
  else 0.
(** Gamma at the positive integers, the only arguments the code uses *)
Definition otgamma (a : option R) : option R :=
  match a with
  | Some x => if Req_EM_T x (IZR (Zfloor x)) then
                if (1 <=? Zfloor x)%Z then Some (INR (fact (Z.to_nat (Zfloor x - 1)))) else None
              else None
  | None => None
  end.
Definition ocmp (f : R -> R -> bool) (a b : option R) : bool :=
  match a, b with Some x, Some y => f x y | _, _ => false end.
Definition Rltb (x y : R) : bool := if Rlt_dec x y then true else false.
Definition Rleb (x y : R) : bool := if Rle_dec x y then true else false.
Definition Reqb (x y : R) : bool := if Req_EM_T x y then true else false.

(** [e] is the machine epsilon of the modelled type. *)
Definition NumR (e : R) : num := {|
  car := option R;
  lit := fun m k => Some (litR m k);
  ofZ := fun z => Some (IZR z);
  add := lift2 Rplus; sub := lift2 Rminus; mul := lift2 Rmult; div := odiv; opp := lift1 Ropp;
  ltb := ocmp Rltb; leb := ocmp Rleb; eqb := ocmp Reqb;
  isnan := fun a => match a with None => true | Some _ => false end;
  isinf := fun _ => false;
  nan := None; inf := None; eps := Some e;
  nlog := olog; nlog1p := olog1p; nsin := lift1 Rtrigo_def.sin; ncos := lift1 Rtrigo_def.cos;
  nexp := lift1 Rtrigo_def.exp;
  nsqrt := osqrt; nfmod := ofmod; npow := opow;
  nhypot := lift2 (fun x y => R_sqrt.sqrt (x * x + y * y));
  natan2 := lift2 atan2R; natan := lift1 Ratan.atan;
  nexp2 := lift1 (fun x => Rpower 2 x);
  ntgamma := otgamma;
  ceil_to_Z := fun a => match a with Some x => Some (Zceil x) | None => None end
|}.

(** machine epsilons: double 2^-52, float 2^-23, x87 long double 2^-63, quadruple 2^-112 *)
Definition eps_d : R := / IZR (2 ^ 52).
Definition eps_f : R := / IZR (2 ^ 23).
Definition eps_l : R := / IZR (2 ^ 63).
Definition eps_q : R := / IZR (2 ^ 112).
Definition RD : num := NumR eps_d.
Definition RF : num := NumR eps_f.
Definition RL : num := NumR eps_l.
Definition RQ : num := NumR eps_q.
