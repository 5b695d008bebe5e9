(** component/db/src/pd_handle/replica.rs again, now over the whole life of a server: every new leader opens
    another channel and spawns another [process_cmd] task, and the tasks share everything else.
    Follower.v is the part of this between two changes of leader.
    Simplifications: [replace_dict] is one step (its parts are in Expire.v); what a receiver that nobody
    holds any more does to its channel is left out (nobody can see it). *)
From Verif Require Export Follower.

(** Where a [process_cmd] task stands, replica.rs:90-113. *)
Inductive tpc :=
  | TLoad                  (* about to load cmd_rx, replica.rs:92 *)
  | TRecv (c : nat)        (* in recv_async on channel c, whose receiver it keeps alive, replica.rs:93 *)
  | TWait (m : fwd_msg)    (* wait_slot: about to load the flag, replica.rs:34 *)
  | TPoll (m : fwd_msg)    (* wait_slot: about to poll notified() for the first time, replica.rs:35 *)
  | TPark (m : fwd_msg)    (* wait_slot: registered as a waiter, replica.rs:35 *)
  | TTry (m : fwd_msg)     (* about to call process_forward, replica.rs:98 *)
  | TSync (m : fwd_msg)    (* about to call sync_snapshot, replica.rs:100 *)
  | TSleep (m : fwd_msg)   (* sleeping one second, replica.rs:102 *)
  | TEnd                   (* returned, replica.rs:110 *)
  | TDead.                 (* a panic ended the task *)

(** A flume channel: what has been sent and not received, and whether its sender, the thread running
    receive_cmd, is still there (replica.rs:116, 121-125). *)
Record chan := Chan { ch_msgs : list fwd_msg; ch_open : bool }.

(** replica.rs:22-29, with the tasks and threads that were spawned.  A tokio [Notify] is the permit it may
    store and the queue of its waiters. *)
Record tasks := Tasks {
  tk_db : db;
  tk_syncing : bool;
  tk_locks : N -> bool;
  tk_permit : bool;
  tk_waiters : list nat;
  tk_chans : list chan;
  tk_rx : option nat;
  tk_cmds : list tpc;
  tk_xfers : list xpc }.

(** replica.rs:132-148 *)
Definition tk_start : tasks := Tasks db_empty false (fun _ => false) false [] [] None [] [].

(** What can happen, by replica.rs:31-180 and mod.rs:87-108. *)
Inductive tevent :=
  | UMsg (c : nat) (m : fwd_msg)      (* receive_cmd of channel c sends a message, replica.rs:178 *)
  | UHangup (c : nat)                 (* receive_cmd of channel c ends, replica.rs:175-178 *)
  | UStep (i : nat) (now : N)         (* task i takes its next step; [now] is read by process_forward *)
  | UWake (i : nat)                   (* the sleep of task i ends, replica.rs:102 *)
  | USyncAll                          (* a new leader: sync_all_snapshot, mod.rs:94, replica.rs:150-152 *)
  | USyncCmd                          (* then sync_cmd, mod.rs:95, replica.rs:115-129 *)
  | UClose                            (* promotion: close_sync_cmd, mod.rs:100, replica.rs:157-159 *)
  | UOpen (x : nat) (s : bytes)       (* transfer x connects; the leader's answer is [s] *)
  | UXfer (x : nat)                   (* transfer x takes its next step *)
  | UFail (x : nat).                  (* transfer x cannot connect, or its connection breaks *)

(** [Notify::notify_one] (replica.rs:79): the longest waiting waiter goes on, or a permit is stored. *)
Definition notify_one (x : tasks) : tasks :=
  let 'Tasks b sy lk pm ws ch rx cs xs := x in
  match ws with
  | i :: ws' =>
      Tasks b sy lk pm ws' ch rx
        (match cs !! i with Some (TPark m) => <[i := (TWait m)]> cs | _ => cs end) xs
  | [] => Tasks b sy lk true ws ch rx cs xs
  end.

(** replica.rs:42-60 with lock_slot (83-88).  [None] is the error "syncing". *)
Definition tk_sync (slot : N) (x : tasks) : option tasks :=
  let 'Tasks b sy lk pm ws ch rx cs xs := x in
  if sy then None else Some (Tasks b true (fun _ => true) pm ws ch rx cs (xs ++ [XConnect slot])).

(** One step of task [i], replica.rs:90-113.  A slot that does not exist is an index out of bounds (replica.rs:34). *)
Definition task_step (i : nat) (now : N) (x : tasks) : option tasks :=
  let 'Tasks b sy lk pm ws ch rx cs xs := x in
  let go b pm ws ch c := Some (Tasks b sy lk pm ws ch rx (<[i := c]> cs) xs) in
  match cs !! i with
  | Some TLoad => go b pm ws ch (match rx with Some c => TRecv c | None => TEnd end)
  | Some (TRecv c) =>
      match ch !! c with
      | Some (Chan (m :: ms) o) => go b pm ws (<[c := (Chan ms o)]> ch) (TWait m)
      | Some (Chan [] true) => None
      | _ => go b pm ws ch TLoad
      end
  | Some (TWait m) => go b pm ws ch (if negb (fm_slot m <? slot_size)%N then TDead else if lk (fm_slot m) then TPoll m else TTry m)
  | Some (TPoll m) => if pm then go b false ws ch (TWait m) else go b pm (ws ++ [i]) ch (TPark m)
  | Some (TTry m) =>
      let '(d, o, _) := process_forward (fm_slot m) now (fm_id m) (fm_cmd m) (b (fm_slot m)) in
      go (db_set (fm_slot m) d b) pm ws ch
        (match o with Some Gt => TSync m | Some _ => TLoad | None => TDead end)
  | Some (TSync m) =>
      match tk_sync (fm_slot m) (Tasks b sy lk pm ws ch rx (<[i := (TWait m)]> cs) xs) with
      | Some x' => Some x'
      | None => go b pm ws ch (TSleep m)
      end
  | _ => None
  end.

(** One step of a transfer, replica.rs:62-81.  An error ends the thread and nothing else
    (replica.rs:54-56). *)
Definition tk_xfer (k : nat) (x : tasks) : option tasks :=
  let 'Tasks b sy lk pm ws ch rx cs xs := x in
  match nth_error xs k with
  | Some (XRead s) =>
      match read_item s with
      | IInstall j d r => Some (Tasks (db_set j d b) sy lk pm ws ch rx cs (with_xfer k (Some (XUnlock j r)) xs))
      | IEnd => Some (Tasks b false lk pm ws ch rx cs (with_xfer k (Some XNotify) xs))
      | IFail => Some (Tasks b sy lk pm ws ch rx cs (with_xfer k None xs))
      end
  | Some (XUnlock j r) =>
      Some (Tasks b sy (fun l => if (l =? j)%N then false else lk l) pm ws ch rx cs (with_xfer k (Some (XRead r)) xs))
  | Some XNotify => Some (notify_one (Tasks b sy lk pm ws ch rx cs (with_xfer k None xs)))
  | _ => None
  end.

(** replica.rs:31-180: the transition function; [None]: the event is not enabled. *)
Definition tstep (ev : tevent) (x : tasks) : option tasks :=
  let 'Tasks b sy lk pm ws ch rx cs xs := x in
  match ev with
  | UMsg c m =>
      match ch !! c with
      | Some (Chan ms true) => Some (Tasks b sy lk pm ws (<[c := (Chan (ms ++ [m]) true)]> ch) rx cs xs)
      | _ => None
      end
  | UHangup c =>
      match ch !! c with
      | Some (Chan ms true) => Some (Tasks b sy lk pm ws (<[c := (Chan ms false)]> ch) rx cs xs)
      | _ => None
      end
  | UStep i now => task_step i now x
  | UWake i =>
      match cs !! i with
      | Some (TSleep m) => Some (Tasks b sy lk pm ws ch rx (<[i := (TWait m)]> cs) xs)
      | _ => None
      end
  | USyncAll => match tk_sync slot_size x with Some x' => Some x' | None => Some x end
  | USyncCmd => Some (Tasks b sy lk pm ws (ch ++ [Chan [] true]) (Some (length ch)) (cs ++ [TLoad]) xs)
  | UClose => Some (Tasks b sy lk pm ws ch None cs xs)
  | UOpen k s =>
      match nth_error xs k with
      | Some (XConnect _) => Some (Tasks b sy lk pm ws ch rx cs (with_xfer k (Some (XRead s)) xs))
      | _ => None
      end
  | UXfer k => tk_xfer k x
  | UFail k =>
      match nth_error xs k with
      | Some (XConnect _) | Some (XRead _) => Some (Tasks b sy lk pm ws ch rx cs (with_xfer k None xs))
      | _ => None
      end
  end.

(** An execution of replica.rs:31-180. *)
Fixpoint tsteps (evs : list tevent) (x : tasks) : option tasks :=
  match evs with
  | [] => Some x
  | ev :: evs' => match tstep ev x with Some x' => tsteps evs' x' | None => None end
  end.
