(** Numbers as text: the parts of the Rust standard library that the request layer uses. *)
From Verif Require Export F64.

(** ** Integers: [str::parse::<i64>()] (core::num, used in component/server/src/cmd/sorted_set/zrange.rs:49-50
    and zrevrange.rs:22-23).  Unlike atoi the whole text must be a number. *)
Inductive int_err := IntEmpty | IntInvalid | IntPosOverflow | IntNegOverflow.
Global Instance int_err_eq_dec : EqDecision int_err. Proof. solve_decision. Defined.

(** core::num::from_str_radix, the digit loop; [neg] selects checked_sub.
    Called by cmd/sorted_set/zrange.rs ([parse::<i64>]). *)
Fixpoint int_digits (neg : bool) (acc : Z) (t : bytes) : Z + int_err :=
  match t with
  | [] => inl acc
  | b :: t' =>
      match byte_digit b with
      | None => inr IntInvalid
      | Some d =>
          let a := if neg then (acc * 10 - d)%Z else (acc * 10 + d)%Z in
          if is_i64 (acc * 10) && is_i64 a then int_digits neg a t'
          else inr (if neg then IntNegOverflow else IntPosOverflow)
      end
  end.
(** core::num::from_str_radix, the sign: a lone sign is an invalid digit. cmd/sorted_set/zrange.rs. *)
Definition parse_i64 (t : bytes) : Z + int_err :=
  match t with
  | [] => inr IntEmpty
  | b :: t' =>
      if byte_eq_dec b x2b then match t' with [] => inr IntInvalid | _ => int_digits false 0 t' end
      else if byte_eq_dec b x2d then match t' with [] => inr IntInvalid | _ => int_digits true 0 t' end
      else int_digits false 0 t
  end.

(** ** Floats: [str::parse::<f64>()] (core::num::dec2flt, used in component/common/src/connection/parse/frame.rs:290-293
    and component/common/src/options/range_cmd_order.rs:29-31) *)

(** dec2flt::parse, a maximal run of decimal digits: their value, their number, the rest.
    Called by frame.rs (TryFrom<Frame> for Float). *)
Fixpoint take_digits (acc : N) (n : nat) (t : bytes) : N * nat * bytes :=
  match t with
  | [] => (acc, n, [])
  | b :: t' =>
      match byte_digit b with
      | Some d => take_digits (10 * acc + Z.to_N d) (S n) t'
      | None => (acc, n, t)
      end
  end.
(** dec2flt::parse::parse_scientific: [None] is a syntax error. As [take_digits]. *)
Definition parse_exp10 (t : bytes) : option Z :=
  match t with
  | [] => Some 0%Z
  | b :: t1 =>
      if bool_decide (b = x65) || bool_decide (b = x45) then
        let '(neg, t2) :=
          match t1 with
          | c :: t' => if byte_eq_dec c x2d then (true, t') else if byte_eq_dec c x2b then (false, t') else (false, t1)
          | [] => (false, t1)
          end in
        match take_digits 0 0 t2 with
        | (e, S _, []) => Some (if neg then (- Z.of_N e)%Z else Z.of_N e)
        | _ => None
        end
      else None
  end.
(** dec2flt::parse::parse_number: mantissa and decimal exponent. As [take_digits]. *)
Definition parse_decimal (t : bytes) : option (N * Z) :=
  let '(m1, n1, t1) := take_digits 0 0 t in
  let '(m, n2, t2) :=
    match t1 with
    | b :: t' => if byte_eq_dec b x2e then take_digits m1 0 t' else (m1, 0%nat, t1)
    | [] => (m1, 0%nat, t1)
    end in
  match (n1 + n2)%nat with
  | O => None
  | S _ => match parse_exp10 t2 with Some e => Some (m, (e - Z.of_nat n2)%Z) | None => None end
  end.
(** The correctly rounded value of [m * 10^e] (dec2flt rounds to nearest, ties to even).  The real code caps
    exponents of more than five digits; the rounded value (0 or infinity) is the same unless the mantissa
    has more than 65536 digits. As [take_digits]. *)
Definition round_decimal (neg : bool) (m : N) (e : Z) : f64 :=
  match m with
  | 0%N => S754_zero neg
  | Npos p =>
      if (0 <=? e)%Z then
        binary_normalize f64_prec f64_emax ((if neg then -1 else 1) * (Zpos p * 10 ^ e)) 0 neg
      else SFdiv f64_prec f64_emax (S754_finite neg p 0) (S754_finite false (Z.to_pos (10 ^ (- e))) 0)
  end.
(** dec2flt: sign, then a number, else "inf", "infinity" or "nan" in any case.
    Called by options/range_cmd_order.rs:25-34 and frame.rs (TryFrom<Frame> for Float). *)
Definition parse_f64 (t : bytes) : option f64 :=
  let '(neg, t') :=
    match t with
    | b :: t' => if byte_eq_dec b x2d then (true, t') else if byte_eq_dec b x2b then (false, t') else (false, t)
    | [] => (false, t)
    end in
  match parse_decimal t' with
  | Some (m, e) => Some (round_decimal neg m e)
  | None =>
      if bool_decide (lower t' = bs "inf") || bool_decide (lower t' = bs "infinity") then Some (S754_infinity neg)
      else if bool_decide (lower t' = bs "nan") then Some S754_nan
      else None
  end.
