(** C05, C07, C08: decimal text and slot routing. *)
From Verif Require Import SlotFacts BytesFacts.

(** ** C05: every 64-bit integer printed in decimal is read back as the same integer, whatever
    non-digit text follows. *)
Theorem C05_integer_text_round_trip (z : Z) (rest : bytes) :
  (- 2 ^ 63 <= z < 2 ^ 63)%Z ->
  (match rest with [] => True | b :: _ => ~ (48 <= Byte.to_N b <= 57)%N end) ->
  atoi_i64 (show_Z z ++ rest) = Some z.
Proof.
  intros Hz Hr. apply atoi_show_Z.
  - unfold is_i64, i64_min, i64_max, z_two63. lia.
  - destruct rest as [|b r]; [done|]. cbn in *. unfold is_digit, byte_digit.
    replace ((48 <=? Byte.to_N b)%N && (Byte.to_N b <=? 57)%N) with false by lia. done.
Qed.
Print Assumptions C05_integer_text_round_trip.
Example C05_case :
  show_Z (- 2 ^ 63) = bs "-9223372036854775808" /\
  atoi_i64 (show_Z (- 2 ^ 63) ++ CRLF) = Some (- 2 ^ 63)%Z.
Proof. split; vm_compute; reflexivity. Qed.

(** ** C07: every key has one slot below 16384; keys with the same hash tag share it. *)
Theorem C07_slot_in_range (key : bytes) : (get_slot key < 16384)%N.
Proof. exact (get_slot_lt key). Qed.
Print Assumptions C07_slot_in_range.

Theorem C07_same_tag_same_slot (k1 k2 tag : bytes) :
  brace_tag k1 tag -> brace_tag k2 tag -> get_slot k1 = get_slot k2.
Proof. exact (get_slot_same_tag k1 k2 tag). Qed.
Print Assumptions C07_same_tag_same_slot.
Example C07_case :
  brace_tag (bs "{user1}.name") (bs "user1") /\ brace_tag (bs "x{user1}}y{z}") (bs "user1") /\
  get_slot (bs "{user1}.name") <> get_slot (bs "{user2}.name").
Proof.
  split; [|split].
  - exists [], (bs ".name"). split; [done|]. split; [set_solver|]. vm_compute. set_solver.
  - exists (bs "x"), (bs "}y{z}"). split; [done|]. split; vm_compute; set_solver.
  - vm_compute. discriminate.
Qed.

(** ** C08: the slot is the one of the Redis Cluster specification.  The CRC side is complete
    ([crc16_spec] is polynomial division); missing: keys whose first brace pair is empty. *)
Theorem C08_slot_is_redis_slot_partial (key : bytes) :
  ~ brace_tag key [] -> redis_slot key (get_slot key).
Proof. exact (get_slot_redis key). Qed.
Print Assumptions C08_slot_is_redis_slot_partial.
Example C08_case : ~ brace_tag (bs "a{b}c") [] /\ crc16_spec (bs "123456789") = 12739%N.
Proof.
  split; [|by vm_compute].
  intros H. apply hash_part_tag in H. vm_compute in H. discriminate.
Qed.

(** The Redis slot of a key is unique, so the deviation is real. *)
Theorem C08_redis_slot_unique (key : bytes) (s1 s2 : N) :
  redis_slot key s1 -> redis_slot key s2 -> s1 = s2.
Proof.
  intros (p1 & H1 & ->) (p2 & H2 & ->). f_equal. f_equal.
  destruct H1 as [[N1 T1]|[-> N1]], H2 as [[N2 T2]|[-> N2]]; [| | |done].
  - by rewrite <- (hash_part_tag _ _ T1), <- (hash_part_tag _ _ T2).
  - by destruct (N2 p1).
  - by destruct (N1 p2).
Qed.
Print Assumptions C08_redis_slot_unique.

Theorem C08_slot_is_redis_slot_refuted : exists key, ~ redis_slot key (get_slot key).
Proof.
  exists (bs "{}ab"). intros (p & H & E).
  assert (p = bs "{}ab") as ->.
  { destruct H as [[N T]|[-> _]]; [|done]. apply hash_part_tag in T. vm_compute in T. congruence. }
  vm_compute in E. discriminate.
Qed.
Print Assumptions C08_slot_is_redis_slot_refuted.
