(** Byte strings, decimal text and fixed-width arithmetic used all over the code base.

    Rust [&[u8]], [Vec<u8>], [Box<[u8]>], [Arc<[u8]>] (keys::Key) are all modelled by [bytes].
    Rust [u64]/[usize] are modelled by [N], [i64] by [Z]; wherever the code can overflow the
    wrap is written explicitly ([wrap_u64], [wrap_i64]; release profile, overflow checks off). *)
From Coq Require Export ZArith NArith Lia.
From Coq Require Export Strings.Byte.
From Coq Require Import Strings.String.
From stdpp Require Export prelude list gmap sets countable.

(** Byte strings: [Vec<u8>], [Box<\[u8\]>], [&\[u8\]] and [Key] (component/keys/src/lib.rs:1-16). *)
Notation bytes := (list byte).

(** ** Decidability and countability, needed to use byte strings as [gmap] keys
    (std::collections::HashMap<Box<[u8]>, _>, component/dict/src/lib.rs:43). *)
Global Instance byte_eq_dec : EqDecision byte := Byte.byte_eq_dec.

Global Program Instance byte_countable : Countable byte :=
  inj_countable Byte.to_N Byte.of_N _.
Next Obligation. intros x; apply Byte.of_to_N. Qed.

(** Tooling: lets std++ index lists of bytes. *)
Global Instance byte_inhabited : Inhabited byte := populate Byte.x00.

(** Literal byte strings, [b"..."] in the Rust sources.
    Used for the literals of frame.rs, cmd/mod.rs:148-220 and options/*.rs. *)
Definition bs (s : string) : bytes := list_byte_of_string s.
Arguments bs _%string_scope.
Export String.StringSyntax.

(** The byte with value [n mod 256] (Rust [n as u8]).
    Used by component/common/src/connection/parse/frame.rs:337-344 and the encoders of bincode. *)
Definition byte_of_N (n : N) : byte :=
  match Byte.of_N (n mod 256) with Some b => b | None => x00 end.

(** The byte constants that the RESP code compares with
    (component/common/src/connection/parse/frame.rs). *)
Definition CR : byte := x0d.
(** frame.rs:89, 99, 109 *)
Definition LF : byte := x0a.
(** frame.rs:90, 100, 112 *)
Definition CRLF : bytes := [CR; LF].

(** ** Byte order: Rust's [Ord for [u8]] is lexicographic on unsigned bytes
    (used through the derived [Ord for Node], component/dict/src/data_type/sorted_set.rs:7-11). *)
Definition byte_cmp (a b : byte) : comparison := N.compare (Byte.to_N a) (Byte.to_N b).

(** [Ord] of byte slices: lexicographic (derived orders of sorted_set.rs:7-11 and expire.rs:16-23). *)
Fixpoint bytes_cmp (x y : bytes) : comparison :=
  match x, y with
  | [], [] => Eq
  | [], _ :: _ => Lt
  | _ :: _, [] => Gt
  | a :: x', b :: y' =>
      match byte_cmp a b with
      | Eq => bytes_cmp x' y'
      | c => c
      end
  end.

(** ** Fixed-width arithmetic *)
(** 2^64: the range of [u64] (dict/src/lib.rs:42-57). *)
Definition two64 : N := 2 ^ 64.
(** [u64] arithmetic in release mode, e.g. dict/src/lib.rs:130. *)
Definition wrap_u64 (n : N) : N := n mod two64.

(** [a - b] on u64 in release mode (wraps). Used by dict/src/lib.rs:113 and cmd/others/restore.rs:26-46. *)
Definition sub_u64 (a b : N) : N := (a + (two64 - b mod two64)) mod two64.

(** 2^63 and 2^64 for [i64] (dict/src/data_type/mod.rs:22). *)
Definition z_two63 : Z := 2 ^ 63.
(** See [z_two63]. *)
Definition z_two64 : Z := 2 ^ 64.
(** [i64::MIN] (data_type/mod.rs:22) *)
Definition i64_min : Z := - z_two63.
(** [i64::MAX] (data_type/mod.rs:22) *)
Definition i64_max : Z := z_two63 - 1.
(** Membership in [i64] (data_type/mod.rs:22). *)
Definition is_i64 (z : Z) : bool := (i64_min <=? z)%Z && (z <=? i64_max)%Z.

(** i64 result of an overflowing operation in release mode (two's complement wrap).
    dict/src/cmd/simple/incr.rs, dict/src/cmd/kvp/incr.rs. *)
Definition wrap_i64 (z : Z) : Z := ((z + z_two63) mod z_two64 - z_two63)%Z.

(** [x as u64] for [x : i64] and [x as i64] for [x : u64]. Casts of sorted_set/mod.rs:17-50, deque/range.rs. *)
Definition i64_as_u64 (z : Z) : N := Z.to_N (z mod z_two64)%Z.
(** Casts of server/src/cmd (lengths, TTLs). *)
Definition u64_as_i64 (n : N) : Z := wrap_i64 (Z.of_N n).

(** ** Decimal printing: Rust [i64::to_string] / [usize::to_string]
    (used in component/common/src/connection/parse/frame.rs:192-251 through [write!]). *)
Definition digit (n : N) : byte := byte_of_N (48 + n mod 10).

(** Digits of [i64::to_string] (frame.rs, the writer; data_type/mod.rs:83), least significant first in the accumulator. *)
Fixpoint show_digits (fuel : nat) (n : N) : bytes :=
  match fuel with
  | O => []
  | S fuel' =>
      if (n <? 10)%N then [digit n]
      else show_digits fuel' (n / 10) ++ [digit n]
  end.

(** The fuel is the number of binary digits, never fewer than the decimal digits. See [show_digits]. *)
Definition show_N (n : N) : bytes := show_digits (S (N.to_nat (N.log2 n))) n.

(** [i64::to_string] (data_type/mod.rs:83). *)
Definition show_Z (z : Z) : bytes :=
  if (z <? 0)%Z then x2d :: show_N (Z.to_N (- z)) else show_N (Z.to_N z).

(** ** atoi 2.0: [atoi::atoi::<i64>(text)] (FromRadix10SignedChecked).
    An optional sign, then as many decimal digits as follow; the rest of the text is ignored.
    [None] when nothing was consumed or the value leaves the i64 range.
    (A lone sign is consumed and yields [Some 0] in atoi 2.0.0.) *)
Definition byte_digit (b : byte) : option Z :=
  let n := Byte.to_N b in
  if (48 <=? n)%N && (n <=? 57)%N then Some (Z.of_N (n - 48)) else None.

(** [checked_mul] / [checked_add] of atoi 2.0, called by frame.rs:110, 121 and data_type/mod.rs:61. *)
Definition checked_i64 (z : Z) : option Z := if is_i64 z then Some z else None.

(** One digit step: [number.checked_mul(10)] then [checked_add]/[checked_sub]; [sgn] is 1 or -1.
    atoi 2.0, called by frame.rs:110, 121. *)
Definition atoi_digit (sgn : Z) (acc : option Z) (d : Z) : option Z :=
  match acc with
  | None => None
  | Some a =>
      match checked_i64 (a * 10) with
      | None => None
      | Some m => checked_i64 (m + sgn * d)
      end
  end.

(** Returns the checked value and the number of digits consumed. atoi 2.0, called by frame.rs:110, 121. *)
Fixpoint atoi_loop (sgn : Z) (acc : option Z) (n : nat) (t : bytes) : option Z * nat :=
  match t with
  | [] => (acc, n)
  | b :: t' =>
      match byte_digit b with
      | Some d => atoi_loop sgn (atoi_digit sgn acc d) (S n) t'
      | None => (acc, n)
      end
  end.

(** [atoi::atoi::<i64>], called by frame.rs:110, 121, parse/mod.rs:160 and data_type/mod.rs:61. *)
Definition atoi_i64 (t : bytes) : option Z :=
  let '(sgn, off, t') :=
    match t with
    | b :: t' =>
        if byte_eq_dec b x2d then ((-1)%Z, 1%nat, t')
        else if byte_eq_dec b x2b then (1%Z, 1%nat, t')
        else (1%Z, 0%nat, t)
    | [] => (1%Z, 0%nat, t)
    end in
  match atoi_loop sgn (Some 0%Z) off t' with
  | (Some z, S _) => Some z
  | _ => None
  end.

(** ** Lower-casing *)
(** One ASCII letter, as in [u8::eq_ignore_ascii_case] (dec2flt, used by [str::parse::<f64>], parse_frames.rs:64-66) and
    [str::to_lowercase] (frame.rs:271). *)
Definition lower_byte (b : byte) : byte :=
  let n := Byte.to_N b in
  if (65 <=? n)%N && (n <=? 90)%N then byte_of_N (n + 32) else b.
(** The ASCII letters of a text; see [lower_byte] (frame.rs:271). *)
Definition lower (t : bytes) : bytes := map lower_byte t.
(** U+212A, the Kelvin sign (E2 84 AA), has the lower case [k] (frame.rs:271). *)
Fixpoint kelvin (t : bytes) : bytes :=
  match t with
  | [] => []
  | b :: t' =>
      match b, t' with
      | xe2, x84 :: xaa :: t'' => x6b :: kelvin t''
      | _, _ => b :: kelvin t'
      end
  end.
(** [str::to_lowercase] (cmd/mod.rs:141, frame.rs:271-279, pd/src/connect.rs:67) of a valid text.  The Kelvin sign is the only
    character outside ASCII whose lower case is an ASCII text (that of U+0130 has two characters, one of them not ASCII), so
    that the comparisons with names and tags are exact.  Simplification: other characters are left alone, which shows in the name that an
    "unknown command" error repeats. *)
Definition lowercase (t : bytes) : bytes := lower (kelvin t).

(** ** UTF-8 validity: [std::str::from_utf8(b).is_ok()] (Unicode table 3-7). *)
Definition in_range (lo hi : N) (b : byte) : bool :=
  (lo <=? Byte.to_N b)%N && (Byte.to_N b <=? hi)%N.
(** A UTF-8 continuation byte (for [std::str::from_utf8], frame.rs:254-267). *)
Definition cont (b : byte) : bool := in_range 128 191 b.

(** [std::str::from_utf8(b).is_ok()] (frame.rs:254-267, 271-279). *)
Fixpoint utf8_valid (t : bytes) : bool :=
  match t with
  | [] => true
  | a :: t1 =>
      if in_range 0 127 a then utf8_valid t1
      else match t1 with
      | [] => false
      | b :: t2 =>
          if in_range 194 223 a then cont b && utf8_valid t2
          else match t2 with
          | [] => false
          | c :: t3 =>
              if in_range 224 224 a then in_range 160 191 b && cont c && utf8_valid t3
              else if in_range 237 237 a then in_range 128 159 b && cont c && utf8_valid t3
              else if in_range 225 239 a then cont b && cont c && utf8_valid t3
              else match t3 with
              | [] => false
              | d :: t4 =>
                  if in_range 240 240 a then in_range 144 191 b && cont c && cont d && utf8_valid t4
                  else if in_range 241 243 a then cont b && cont c && cont d && utf8_valid t4
                  else if in_range 244 244 a then in_range 128 143 b && cont c && cont d && utf8_valid t4
                  else false
              end
          end
      end
  end.
