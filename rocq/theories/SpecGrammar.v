(** The grammar of what a client may send, and which frame each sentence denotes. *)
From Verif Require Export SpecFrame SpecText.

(** The number a line stands for: what [reads_as] reads, if that has 64 bits, otherwise 0. *)
Definition line_number (l : bytes) (z : Z) : Prop :=
  (reads_as l z /\ (- 2 ^ 63 <= z < 2 ^ 63)%Z) \/
  ((forall y, reads_as l y -> ~ (- 2 ^ 63 <= y < 2 ^ 63)%Z) /\ z = 0%Z).

Inductive wire : bytes -> frame -> Prop :=
  | wire_simple l : one_line l -> wire (bs "+" ++ l ++ CRLF) (FSimple l)
  | wire_error l : l <> [] -> one_line l -> wire (bs "-" ++ l ++ CRLF) (FError l)
  | wire_int l z : l <> [] -> one_line l -> line_number l z -> wire (bs ":" ++ l ++ CRLF) (FInteger z)
  | wire_no_bulk l z : l <> [] -> one_line l -> line_number l z -> (z < 0)%Z -> wire (bs "$" ++ l ++ CRLF) FNull
  | wire_bulk l d : l <> [] -> one_line l -> line_number l (Z.of_nat (length d)) ->
      wire (bs "$" ++ l ++ CRLF ++ d ++ CRLF) (FBulk d)
  | wire_no_array l z : l <> [] -> one_line l -> line_number l z -> (z < 0)%Z -> wire (bs "*" ++ l ++ CRLF) FNull
  | wire_array l w fs : l <> [] -> one_line l -> line_number l (Z.of_nat (length fs)) -> wires w fs ->
      wire (bs "*" ++ l ++ CRLF ++ w) (FArray fs)
  | wire_ping : wire (bs "PING" ++ CRLF) FPing
with wires : bytes -> list frame -> Prop :=
  | wires_nil : wires [] []
  | wires_cons w f ws fs : wire w f -> wires ws fs -> wires (w ++ ws) (f :: fs).

Scheme wire_mind := Minimality for wire Sort Prop with wires_mind := Minimality for wires Sort Prop.

(** [b] is a beginning of a sentence, not a whole one. *)
Definition unfinished (b : bytes) : Prop := exists u f, u <> [] /\ wire (b ++ u) f.
(** Nothing that begins with [b] is a sentence, with or without more after it. *)
Definition hopeless (b : bytes) : Prop := forall u w r f, b ++ u = w ++ r -> ~ wire w f.
