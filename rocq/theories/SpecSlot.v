(** Specification of key routing (https://redis.io/topics/cluster-spec): CRC-16/XMODEM of the hash
    tag, modulo 16384. *)
From Verif Require Export Bytes.

(** ** CRC-16/XMODEM as polynomial division over GF(2).  A number is read as the polynomial of its bits;
    one step of the schoolbook division of the dividend, most significant bit first, by
    x^16 + x^12 + x^5 + 1 (0x11021). *)
Definition div_step (r : N) (b : bool) : N :=
  let r' := N.lxor (N.shiftl r 1) (N.b2n b) in
  if N.testbit r' 16 then N.lxor r' 69665 else r'.
Definition poly_rem (bits : list bool) : N := fold_left div_step bits 0%N.

(** The bits of a byte, most significant first. *)
Definition bits_of_byte (b : byte) : list bool :=
  map (N.testbit (Byte.to_N b)) [7; 6; 5; 4; 3; 2; 1; 0]%N.
(** message * x^16 mod P *)
Definition crc16_spec (m : bytes) : N := poly_rem (concat (map bits_of_byte m) ++ repeat false 16).

(** ** Hash tags *)

(** [tag] stands between the first "{" of the key and the first "}" after it. *)
Definition brace_tag (key tag : bytes) : Prop :=
  exists pre post, key = pre ++ x7b :: tag ++ x7d :: post /\ x7b ∉ pre /\ x7d ∉ tag.

(** The Redis Cluster rule: the tag is hashed if there is one and it is not empty, else the key. *)
Definition redis_hashed (key part : bytes) : Prop :=
  (part <> [] /\ brace_tag key part) \/
  (part = key /\ forall tag, tag <> [] -> ~ brace_tag key tag).

Definition redis_slot (key : bytes) (slot : N) : Prop :=
  exists part, redis_hashed key part /\ slot = (crc16_spec part mod 16384)%N.
