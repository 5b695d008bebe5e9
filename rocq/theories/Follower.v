(** component/db/src/pd_handle/replica.rs: the task of a follower that applies forwarded commands and asks
    for snapshots, as a transition system.
    Simplifications: one [process_cmd] task (a change of leader spawns another one that shares the state);
    [replace_dict] is one step (its parts are in Expire.v). *)
From Verif Require Export Snapshot.

(** Where [process_cmd] stands, replica.rs:90-113. *)
Inductive cpc :=
  | CRecv                  (* replica.rs:93 *)
  | CWait (m : fwd_msg)    (* wait_slot: about to load the flag, replica.rs:34 *)
  | CAwait (m : fwd_msg)   (* wait_slot: in notified().await, replica.rs:35 *)
  | CTry (m : fwd_msg)     (* about to call process_forward, replica.rs:98 *)
  | CSync (m : fwd_msg)    (* about to call sync_snapshot, replica.rs:100 *)
  | CSleep (m : fwd_msg)   (* sleeping one second, replica.rs:102 *)
  | CDead.                 (* a panic ended the task *)

(** Where a thread running [sync_snapshot_without_lock] stands, replica.rs:62-81.  The byte string is what
    the leader will still send before the connection ends. *)
Inductive xpc :=
  | XConnect (slot : N)               (* replica.rs:63-70 *)
  | XRead (s : bytes)                 (* replica.rs:71-74 *)
  | XUnlock (slot : N) (s : bytes)    (* replica.rs:75 *)
  | XNotify.                          (* replica.rs:79 *)

(** replica.rs:22-29 *)
Record follower := Follower {
  fo_db : db;
  fo_syncing : bool;
  fo_locks : N -> bool;
  fo_permit : bool;                   (* the permit stored in notify_lock_update *)
  fo_rx : list fwd_msg;               (* the channel filled by receive_cmd *)
  fo_cmd : cpc;
  fo_xfers : list xpc }.

(** replica.rs:132-148 *)
Definition fo_start : follower := Follower db_empty false (fun _ => false) false [] CRecv [].

Inductive fevent :=
  | VMsg (m : fwd_msg)                (* receive_cmd sends a message to the channel, replica.rs:178 *)
  | VStep (now : N)                   (* process_cmd takes its next step; [now] is read by process_forward *)
  | VWake                             (* the sleep of replica.rs:102 ends *)
  | VSyncAll                          (* the placement driver named a leader: mod.rs:94, replica.rs:150-152 *)
  | VOpen (i : nat) (s : bytes)       (* transfer i connects; the leader's answer is [s] *)
  | VXfer (i : nat)                   (* transfer i takes its next step *)
  | VFail (i : nat).                  (* transfer i cannot connect, or its connection breaks *)

(** replica.rs:42-60 with lock_slot (83-88), which locks every slot whatever [slot] is.  [None] is the
    error "syncing". *)
Definition sync_snapshot (slot : N) (f : follower) : option follower :=
  let 'Follower b sy lk pm rx c xs := f in
  if sy then None else Some (Follower b true (fun _ => true) pm rx c (xs ++ [XConnect slot])).

(** Replaces (or ends) transfer [i]. replica.rs:50-57: each transfer is a thread. *)
Definition with_xfer (i : nat) (x : option xpc) (xs : list xpc) : list xpc :=
  firstn i xs ++ match x with Some y => [y] | None => [] end ++ skipn (Datatypes.S i) xs.

(** One step of process_cmd, replica.rs:90-113.  A slot that does not exist is an index out of bounds (replica.rs:34). *)
Definition cmd_step (now : N) (f : follower) : option follower :=
  let 'Follower b sy lk pm rx c xs := f in
  let go b pm rx c := Some (Follower b sy lk pm rx c xs) in
  match c with
  | CRecv => match rx with m :: rx' => go b pm rx' (CWait m) | [] => None end
  | CWait m => go b pm rx (if negb (fm_slot m <? slot_size)%N then CDead else if lk (fm_slot m) then CAwait m else CTry m)
  | CAwait m => if pm then go b false rx (CWait m) else None
  | CTry m =>
      let '(d, o, _) := process_forward (fm_slot m) now (fm_id m) (fm_cmd m) (b (fm_slot m)) in
      go (db_set (fm_slot m) d b) pm rx
        (match o with Some Gt => CSync m | Some _ => CRecv | None => CDead end)
  | CSync m =>
      match sync_snapshot (fm_slot m) (Follower b sy lk pm rx (CWait m) xs) with
      | Some f' => Some f'
      | None => go b pm rx (CSleep m)
      end
  | CSleep _ | CDead => None
  end.

(** One step of a transfer, replica.rs:62-81.  An error ends the thread and nothing else
    (replica.rs:54-56). *)
Definition xfer_step (i : nat) (f : follower) : option follower :=
  let 'Follower b sy lk pm rx c xs := f in
  match nth_error xs i with
  | Some (XRead s) =>
      match read_item s with
      | IInstall j d r => Some (Follower (db_set j d b) sy lk pm rx c (with_xfer i (Some (XUnlock j r)) xs))
      | IEnd => Some (Follower b false lk pm rx c (with_xfer i (Some XNotify) xs))
      | IFail => Some (Follower b sy lk pm rx c (with_xfer i None xs))
      end
  | Some (XUnlock j r) =>
      Some (Follower b sy (fun k => if (k =? j)%N then false else lk k) pm rx c (with_xfer i (Some (XRead r)) xs))
  | Some XNotify => Some (Follower b sy lk true rx c (with_xfer i None xs))
  | _ => None
  end.

(** replica.rs:31-130: the transition function; [None]: the event is not enabled. *)
Definition fstep (ev : fevent) (f : follower) : option follower :=
  let 'Follower b sy lk pm rx c xs := f in
  match ev with
  | VMsg m => Some (Follower b sy lk pm (rx ++ [m]) c xs)
  | VStep now => cmd_step now f
  | VWake => match c with CSleep m => Some (Follower b sy lk pm rx (CWait m) xs) | _ => None end
  | VSyncAll => match sync_snapshot slot_size f with Some f' => Some f' | None => Some f end
  | VOpen i s =>
      match nth_error xs i with
      | Some (XConnect _) => Some (Follower b sy lk pm rx c (with_xfer i (Some (XRead s)) xs))
      | _ => None
      end
  | VXfer i => xfer_step i f
  | VFail i =>
      match nth_error xs i with
      | Some (XConnect _) | Some (XRead _) => Some (Follower b sy lk pm rx c (with_xfer i None xs))
      | _ => None
      end
  end.

(** An execution. replica.rs:31-130. *)
Fixpoint fsteps (evs : list fevent) (f : follower) : option follower :=
  match evs with
  | [] => Some f
  | ev :: evs' => match fstep ev f with Some f' => fsteps evs' f' | None => None end
  end.
