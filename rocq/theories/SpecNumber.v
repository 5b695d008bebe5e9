(** Decimal texts of binary64 numbers.  Real numbers and Flocq's rounding: to the nearest binary64 number with
    unbounded exponent, ties to even. *)
From Coq Require Import ZArith Reals.
From Flocq Require Import Core.Core.
From Verif Require Export F64 SpecText SpecRequest.

(** The real number denoted by a finite binary64 number. *)
Definition real_of (x : f64) : R :=
  match x with
  | S754_finite s m e => (IZR (if s then Zneg m else Zpos m) * powerRZ 2 e)%R
  | _ => 0%R
  end.
Definition finite (x : f64) : bool := match x with S754_finite _ _ _ | S754_zero _ => true | _ => false end.
Definition negative (x : f64) : bool := match x with S754_finite s _ _ | S754_zero s | S754_infinity s => s | S754_nan => false end.
(** The number [r], with the sign [neg], rounded to binary64. *)
Definition to_nearest (r : R) : R := round radix2 (FLT_exp (-1074) 53) (Znearest (fun z => negb (Z.even z))) r.
Definition rounded (neg : bool) (r : R) (x : f64) : Prop :=
  negative x = neg /\
  ((Rabs (to_nearest r) < powerRZ 2 1024)%R -> f64_valid x = true /\ finite x = true /\ real_of x = to_nearest r) /\
  ((powerRZ 2 1024 <= Rabs (to_nearest r))%R -> x = S754_infinity neg).

(** Exponents of 10: nothing, or the letter e, an optional sign and digits. *)
Definition exponent_text (t : bytes) (e : Z) : Prop :=
  t = [] /\ e = 0%Z \/
  exists c sign ds, t = [c] ++ sign ++ ds /\ (c = x65 \/ c = x45) /\ ds <> [] /\ Forall a_digit ds /\
    ((sign = [] \/ sign = bs "+") /\ e = digits_value ds \/ sign = bs "-" /\ e = (- digits_value ds)%Z).
(** Digits with an optional point, and an exponent: the digits as a number [m], the exponent of 10 that belongs to it. *)
Definition number_text (t : bytes) (m e : Z) : Prop :=
  exists ip fp point ex e0, t = ip ++ point ++ ex /\
    Forall a_digit ip /\ Forall a_digit fp /\ ip ++ fp <> [] /\
    (point = [] /\ fp = [] \/ point = bs "." ++ fp) /\
    exponent_text ex e0 /\ m = digits_value (ip ++ fp) /\ e = (e0 - Z.of_nat (length fp))%Z.
Definition signed (neg : bool) (z : Z) : Z := if neg then (- z)%Z else z.
Definition float_text (t : bytes) (x : f64) : Prop :=
  exists sign body neg, t = sign ++ body /\ (neg = false /\ (sign = [] \/ sign = bs "+") \/ neg = true /\ sign = bs "-") /\
    ((exists m e, number_text body m e /\ rounded neg (IZR (signed neg m) * powerRZ 10 e) x) \/
     ((same_text body (bs "inf") \/ same_text body (bs "infinity")) /\ x = S754_infinity neg) \/
     (same_text body (bs "nan") /\ x = S754_nan)).
