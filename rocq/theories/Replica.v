(** component/db/src/slot/replica_update.rs: what a follower does with one forwarded command. *)
From Verif Require Export Forward.

(** replica_update.rs:13-33 (process_forward), 35-52 (call_update) and 54-90 (call_expires_update).
    [WriteCmd::None] answers [Equal] without looking at the dictionary; any other command is applied
    exactly when its id is one more than the last applied one.  The first component of the result is the
    dictionary left behind, the second the returned [Ordering] ([None] when [apply] panics), the third
    the notification sent to the expiry task after the lock is released.
    Simplification: [share_status] is always [Some] (see Db.v). *)
Definition process_forward (slot now id : N) (c : option wreq) (d : dict)
  : dict * option comparison * list exp_msg :=
  match c with
  | None => (d, Some Eq, [])
  | Some w =>
      match N.compare id (wrap_u64 (write_id d + 1)) with
      | Lt => (d, Some Lt, [])
      | Gt => (d, Some Gt, [])
      | Eq =>
          let '(d', r, e) := wapply now w (set_write_id id d) in
          match r with
          | OOk _ => (d', Some Eq, exp_notify slot e)
          | OErr _ => (d', Some Eq, [])
          | OPanic => (d', None, [])
          end
      end
  end.

(** ** One slot of the leader and the same slot of a follower *)

(** What happens to a slot of the leader: client commands (slot.rs:76-159), the purge of an entry of the
    expiry queue (expire.rs:147-165, see [purge_entry] below) and FLUSHALL (lib.rs:158-167). *)
Inductive sop := SWrite (w : wreq) | SRead (r : rreq) | SPurge (e : entry) | SFlush.

(** expire.rs:147-165: one popped entry.  The key is looked up through the filtering [get] (which also
    updates the access log) and removed when the deadline is the one of the entry. *)
Definition purge_entry (now : N) (e : entry) (d : dict) : dict :=
  let '(d1, o) := dict_get now (en_key e) d in
  match o with
  | Some v => if (v_exp v =? en_at e)%N then fst (dict_remove (en_key e) d1) else d1
  | None => d1
  end.

(** One operation at an instant: the dictionary left behind and what is put in the forward channel
    (slot.rs:91-97, 142-148; flush, slot.rs:162-171, forwards nothing). *)
Definition slot_op (ho : horder) (slot : N) (p : N * sop) (d : dict) : dict * list fwd_msg :=
  match snd p with
  | SWrite w => let '(d', o) := slot_write slot (fst p) w d in (d', wo_fwd o)
  | SRead r => (fst (slot_read ho (fst p) r d), [])
  | SPurge e => (purge_entry (fst p) e d, [])
  | SFlush => (slot_flush d, [])
  end.
(** A history of a slot (slot.rs, as above). *)
Fixpoint slot_run (ho : horder) (slot : N) (h : list (N * sop)) (d : dict) : dict :=
  match h with
  | [] => d
  | p :: h' => slot_run ho slot h' (fst (slot_op ho slot p d))
  end.
(** The messages it forwards, slot.rs:91-97 and 142-148. *)
Fixpoint slot_sent (ho : horder) (slot : N) (h : list (N * sop)) (d : dict) : list fwd_msg :=
  match h with
  | [] => []
  | p :: h' => snd (slot_op ho slot p d) ++ slot_sent ho slot h' (fst (slot_op ho slot p d))
  end.

(** What happens to a slot of a follower: a forwarded command (replica_update.rs), a read or a write of a
    client connected to the follower (nothing in the code refuses either), the purge of an entry, and the
    installation of a dictionary from a snapshot (slot.rs:48-74). *)
Inductive fop :=
  | FDeliver (m : fwd_msg) | FRead (r : rreq) | FClient (w : wreq) | FPurge (e : entry) | FInstall (d : dict).
(** One step of a follower: a forwarded command (replica_update.rs) or the purge of an entry (expire.rs:150-165). *)
Definition follower_op (ho : horder) (slot : N) (p : N * fop) (d : dict) : dict :=
  match snd p with
  | FDeliver m => fst (fst (process_forward slot (fst p) (fm_id m) (fm_cmd m) d))
  | FRead r => fst (slot_read ho (fst p) r d)
  | FClient w => fst (slot_write slot (fst p) w d)
  | FPurge e => purge_entry (fst p) e d
  | FInstall d' => fst (slot_replace ho slot d')
  end.
(** A sequence of such steps; each comes with its instant (replica_update.rs, expire.rs:150-165). *)
Fixpoint follower_run (ho : horder) (slot : N) (h : list (N * fop)) (d : dict) : dict :=
  match h with
  | [] => d
  | p :: h' => follower_run ho slot h' (follower_op ho slot p d)
  end.
