(** component/db/src/lib.rs and component/db/src/slot.rs: routing of keys to slots and the execution
    of commands inside a slot. *)
From Verif Require Export Cmd.

(** ** Key hashing *)

(** crc crate 3.0, table generation for a non-reflected 16-bit CRC with the polynomial of
    CRC_16_XMODEM (0x1021, init 0, xorout 0): shift left, xor the polynomial when bit 15 fell out.
    Used by component/db/src/lib.rs:41 (CRC_HASH). *)
Definition crc_shift (v : N) : N :=
  let s := N.land (N.shiftl v 1) 65535 in
  if N.testbit v 15 then N.lxor s 4129 else s.
(** One entry of the table of crc 3.0, built by [Crc::new] (db/src/lib.rs:41). *)
Definition crc_entry (i : N) : N :=
  crc_shift (crc_shift (crc_shift (crc_shift (crc_shift (crc_shift (crc_shift (crc_shift (N.shiftl i 8)))))))).
(** crc crate 3.0, table-driven update: [table[(crc >> 8) ^ byte] ^ (crc << 8)]. *)
Definition crc_update (crc : N) (b : byte) : N :=
  N.lxor (crc_entry (N.land (N.lxor (N.shiftr crc 8) (Byte.to_N b)) 255))
         (N.land (N.shiftl crc 8) 65535).
(** [CRC_HASH.checksum(key)], component/db/src/lib.rs:41 *)
Definition crc16 (key : bytes) : N := fold_left crc_update key 0%N.

(** common::SLOT_SIZE (component/common/src/lib.rs:61) and SIZE_MOD (component/db/src/lib.rs:40) *)
Definition slot_size : N := 16384.
(** db/src/lib.rs:40 *)
Definition size_mod : N := 16383.

(** [key.iter().position(|t| *t == c)]: db/src/lib.rs:82-83. *)
Fixpoint find_byte (c : byte) (key : bytes) : option nat :=
  match key with
  | [] => None
  | b :: key' => if byte_eq_dec b c then Some 0%nat else option_map S (find_byte c key')
  end.

(** The part of the key that is hashed, lib.rs:82-86: [key[begin + 1 .. begin + end]]. *)
Definition hash_part (key : bytes) : bytes :=
  match find_byte x7b key with
  | None => key
  | Some b =>
      match find_byte x7d (skipn b key) with
      | None => key
      | Some e => firstn (e - 1) (skipn (b + 1) key)
      end
  end.

(** lib.rs:81-89 *)
Definition get_slot (key : bytes) : N := N.land (crc16 (hash_part key)) size_mod.

(** ** Messages to the background tasks *)

(** component/db/src/expire.rs:18-23 *)
Record entry := Entry { en_at : N; en_slot : N; en_key : bytes }.
Global Instance entry_eq_dec : EqDecision entry. Proof. solve_decision. Defined.

(** component/db/src/expire.rs:25-37 *)
Inductive exp_msg :=
  | XClear (slot : N)
  | XUpdate (slot : N) (u : exp_update)
  | XBatchAdd (es : list entry).

(** component/db/src/forward/message.rs:5-10; [fm_cmd = None] is [WriteCmd::None]. *)
Record fwd_msg := FwdMsg { fm_id : N; fm_slot : N; fm_cmd : option wreq }.

(** [cmd.into() : WriteCmd]: every request maps to its own variant, except RESTORE
    (component/dict/src/cmd/server/restore.rs:20-26). *)
Definition to_write_cmd (w : wreq) : option wreq :=
  match w with WRestore _ => None | _ => Some w end.

(** slot.rs:113-127 (also replica_update.rs:70-87): notify the expiry task only on a change. *)
Definition exp_notify (slot : N) (e : exp_status) : list exp_msg :=
  match e with
  | Some u => if (eu_before u =? eu_new u)%N then [] else [XUpdate slot u]
  | None => []
  end.

(** ** Slots.  [share_status] is always [Some] (slot.rs:36; nothing ever stores [None]), so a slot is
    just its dictionary. *)

(** What a write returns and sends: its result, the messages to expire_sender and to forward_sender (slot.rs:76-151). *)
Record wout := WOut { wo_res : outcome resp; wo_exp : list exp_msg; wo_fwd : list fwd_msg }.

(** slot.rs:77-100 (call_write) and slot.rs:103-151 (call_expires_write).  The critical section takes
    the next id and applies the command; the notifications are sent after the lock is released.  A panic
    inside [apply] releases the lock by unwinding and sends nothing. *)
Definition slot_write (slot now : N) (w : wreq) (d : dict) : dict * wout :=
  let '(id, d1) := next_id d in
  let '(d2, r, e) := wapply now w d1 in
  match r with
  | OPanic => (d2, WOut OPanic [] [])
  | OErr _ => (d2, WOut r [] [FwdMsg id slot (to_write_cmd w)])
  | OOk _ => (d2, WOut r (exp_notify slot e) [FwdMsg id slot (to_write_cmd w)])
  end.

(** slot.rs:154-159 (call_read) *)
Definition slot_read (ho : horder) (now : N) (r : rreq) (d : dict) : dict * outcome resp :=
  rapply ho now r d.

(** slot.rs:162-171: [std::mem::take] leaves a default dictionary (write id 0). *)
Definition slot_flush (d : dict) : dict := dict_empty.

(** slot.rs:48-74 *)
Definition dict_entries (ho : horder) (slot : N) (d : dict) : list entry :=
  map (fun e => Entry (v_exp (snd e)) slot (fst e))
    (List.filter (fun e => (0 <? v_exp (snd e))%N) (ho value (inner d))).
(** slot.rs:48-74: the messages around the swap of the dictionary. *)
Definition slot_replace (ho : horder) (slot : N) (d : dict) : dict * list exp_msg :=
  (d, [XClear slot; XBatchAdd (dict_entries ho slot d)]).

(** ** The database: component/db/src/lib.rs:32-35 ([slots : Vec<Slot>], here indexed by [N]). *)
Definition db := N -> dict.
(** db/src/lib.rs:52-55 *)
Definition db_empty : db := fun _ => dict_empty.
(** Replaces the dictionary of one slot (slot.rs:25: the slots are independent mutexes). *)
Definition db_set (i : N) (d : dict) (b : db) : db := fun j => if (j =? i)%N then d else b j.

(** All the one-line methods of lib.rs:100-330: [self.get_slot(key).method(cmd)]. *)
Definition db_write (now : N) (w : wreq) (b : db) : db * wout :=
  let i := get_slot (wkey w) in
  let '(d, o) := slot_write i now w (b i) in (db_set i d b, o).
(** db/src/lib.rs:100-261 with call_read (slot.rs:154-159) *)
Definition db_read (ho : horder) (now : N) (r : rreq) (b : db) : db * outcome resp :=
  let i := get_slot (rkey r) in
  let '(d, o) := slot_read ho now r (b i) in (db_set i d b, o).

(** lib.rs:158-167, the loop over [self.slots] (the expiry scan that follows is in Expire.v). *)
Definition db_flushall (b : db) : db :=
  fun i => if (i <? slot_size)%N then slot_flush (b i) else b i.

(** One command of a client, as executed by a slot; the instant is the one read inside the slot. slot.rs:174-387. *)
Inductive cmd := CWrite (w : wreq) | CRead (r : rreq).
(** The key by which lib.rs:100-297 selects the slot. *)
Definition ckey (c : cmd) : bytes := match c with CWrite w => wkey w | CRead r => rkey r end.
(** db/src/lib.rs:100-297 *)
Definition db_cmd (ho : horder) (now : N) (c : cmd) (b : db) : db * outcome resp :=
  match c with
  | CWrite w => let '(b', o) := db_write now w b in (b', wo_res o)
  | CRead r => db_read ho now r b
  end.

(** A history: each command with the instant at which its slot executed it. db/src/lib.rs:100-297. *)
Fixpoint db_run (ho : horder) (h : list (N * cmd)) (b : db) : db * list (outcome resp) :=
  match h with
  | [] => (b, [])
  | (now, c) :: h' =>
      let '(b1, r) := db_cmd ho now c b in
      let '(b2, rs) := db_run ho h' b1 in (b2, r :: rs)
  end.

(** The messages that a history puts into the forward channel (slot.rs:91-97, 142-148), in the order in
    which the commands were executed. *)
Fixpoint db_forwarded (ho : horder) (h : list (N * cmd)) (b : db) : list fwd_msg :=
  match h with
  | [] => []
  | (now, CWrite w) :: h' =>
      let '(b1, o) := db_write now w b in wo_fwd o ++ db_forwarded ho h' b1
  | (now, CRead r) :: h' => db_forwarded ho h' (fst (db_read ho now r b))
  end.
