(** IEEE-754 binary64 numbers, through the standard library's [SpecFloat] (axiom free, executable).

    Models [common::float::Float] (component/common/src/float.rs:10-36). *)
From Coq Require Export Floats.SpecFloat.
From Verif Require Export Bytes.

(** The payload of [Float] (common/src/float.rs:11). *)
Notation f64 := spec_float.

(** Decidable equality of representations, not the [PartialEq] of float.rs:10. *)
Global Instance f64_eq_dec : EqDecision f64.
Proof. solve_decision. Defined.

(** The binary64 format. Of [f64] (float.rs:11). *)
Definition f64_prec : Z := 53.
(** See [f64_prec]. *)
Definition f64_emax : Z := 1024.

(** Bit patterns that are canonical binary64 values. Of [f64] (float.rs:11). *)
Definition f64_valid (x : f64) : bool := valid_binary f64_prec f64_emax x.

(** [impl PartialOrd for Float], component/common/src/float.rs:14-28: [>], [<], [==] tried in that
    order on the underlying [f64]; [None] exactly when one side is NaN. -0.0 and 0.0 compare equal. *)
Definition f64_cmp (x y : f64) : option comparison := SFcompare x y.

(** [a < b], [a <= b], [a > b] on [Float] (derived from [partial_cmp]; false with NaN).
    Used by add.rs:58, range_by_score.rs and remove_by_score_range.rs. *)
Definition f64_lt (x y : f64) : bool :=
  match f64_cmp x y with Some Lt => true | _ => false end.
(** See [f64_lt]. *)
Definition f64_le (x y : f64) : bool :=
  match f64_cmp x y with Some Lt | Some Eq => true | _ => false end.
Definition f64_gt (x y : f64) : bool :=
  match f64_cmp x y with Some Gt => true | _ => false end.
(** [PartialEq for Float] (derived, float.rs:10). *)
Definition f64_eq (x y : f64) : bool :=
  match f64_cmp x y with Some Eq => true | _ => false end.

(** NaN, for which float.rs:25 returns [None]. *)
Definition f64_is_nan (x : f64) : bool :=
  match x with S754_nan => true | _ => false end.

(** [a + b] on f64 (round to nearest even). sorted_set/add.rs:73, sorted_set/mod.rs:59. *)
Definition f64_add (x y : f64) : f64 := SFadd f64_prec f64_emax x y.

(** Constants: [0.1], [0.0], infinities and small integers as f64. sorted_set/mod.rs:59 *)
Definition f64_tenth : f64 := S754_finite false 7205759403792794 (-56).
(** cmd/sorted_set/*.rs: bounds without a score. *)
Definition f64_zero : f64 := S754_zero false.
(** options/range_cmd_order.rs:25-34 *)
Definition f64_inf : f64 := S754_infinity false.
(** options/range_cmd_order.rs:25-34 *)
Definition f64_ninf : f64 := S754_infinity true.
(** data_type/mod.rs:103 *)
Definition f64_of_Z (z : Z) : f64 := binary_normalize f64_prec f64_emax z 0 false.
