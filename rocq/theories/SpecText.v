(** Numbers as texts. *)
From Verif Require Export Bytes.

(** The value of a run of decimal digits. *)
Definition digits_value (ds : bytes) : Z := fold_left (fun a b => (10 * a + (Z.of_N (Byte.to_N b) - 48))%Z) ds 0%Z.
Definition a_digit (b : byte) : Prop := (48 <= Byte.to_N b <= 57)%N.
(** Numbers with a text after them: an optional sign and the longest run of digits, which may be empty after a sign. *)
Definition reads_as (t : bytes) (z : Z) : Prop :=
  exists sign ds rest, t = sign ++ ds ++ rest /\ Forall a_digit ds /\
    match rest with [] => True | b :: _ => ~ a_digit b end /\
    ((sign = [] /\ ds <> [] /\ z = digits_value ds) \/ (sign = [x2b] /\ z = digits_value ds) \/
     (sign = [x2d] /\ z = (- digits_value ds)%Z)).
(** Numbers on their own: an optional sign and at least one digit; the value has 64 bits. *)
Definition int_text (z : Z) (t : bytes) : Prop :=
  (- 2 ^ 63 <= z < 2 ^ 63)%Z /\
  exists sign ds, t = sign ++ ds /\ ds <> [] /\ Forall a_digit ds /\
    ((sign = [] \/ sign = [x2b]) /\ z = digits_value ds \/ sign = [x2d] /\ z = (- digits_value ds)%Z).

(** Texts: Unicode scalar values and their encodings (RFC 3629). *)
Definition scalar_value (c : N) : Prop := (c < 0xD800 \/ 0xE000 <= c < 0x110000)%N.
Definition utf8 (c : N) : list N :=
  (if c <? 0x80 then [c]
   else if c <? 0x800 then [0xC0 + c / 64; 0x80 + c mod 64]
   else if c <? 0x10000 then [0xE0 + c / 4096; 0x80 + c / 64 mod 64; 0x80 + c mod 64]
   else [0xF0 + c / 262144; 0x80 + c / 4096 mod 64; 0x80 + c / 64 mod 64; 0x80 + c mod 64])%N.
Definition is_utf8 (t : bytes) : Prop := exists cs, Forall scalar_value cs /\ map Byte.to_N t = concat (map utf8 cs).
