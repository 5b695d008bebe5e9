(** The locks: one per slot (component/db/src/slot.rs:25), one for the expiry queue
    (component/db/src/lib.rs:36) and one for the table of child processes
    (component/db/src/child_process.rs:11), and the order in which every piece of code takes and releases
    them.  All are parking_lot mutexes: not reentrant, not poisoned by a panic (the guard is dropped while
    unwinding, so that a panic releases like a return).
    Simplifications: only locking is modelled.  What a task does between two lock operations does not wait
    for anything: the channels are unbounded (flume), and no lock is held across an await.  The mutex of
    component/db/src/pd_handle/replica.rs:28 and that of component/db/src/forward/connection.rs:15 are left
    out: they are never held together with another one. *)
From Verif Require Export Expire.

(** The mutexes: of a slot (slot.rs:25), of the expiry queue (lib.rs:36), of the child process (child_process.rs). *)
Inductive lk := KQueue | KSlot (i : N) | KChild.
Global Instance lk_eq_dec : EqDecision lk.
Proof. solve_decision. Defined.
(** [lock()] and the end of the guard. *)
Inductive lop := Lock (k : lk) | Unlock (k : lk).

(** Everything that takes locks. *)
Inductive job :=
  | JCmd (slots : list N)       (* a command on these keys' slots, one after the other: slot.rs:76-159 *)
  | JForward (slot : N)         (* a forwarded command: slot/replica_update.rs:36, 59 *)
  | JReplace (slot : N)         (* slot.rs:48-74 *)
  | JFlushall (scan : option (list N))
                                (* lib.rs:158-167; with SYNC the scan runs in the same thread: the slots of the
                                   entries it visits *)
  | JScan (slots : list N)      (* expire.rs:176-187, in its own thread *)
  | JRecv                       (* one message of recv_task, expire.rs:58-102 *)
  | JPurge (slots : list N)     (* one call of purge_expired_keys, expire.rs:128-173: the slots of the entries popped *)
  | JSnapshot (slot : N)        (* server/src/cmd/syncsnapshot.rs:19-70, in the parent process *)
  | JReap.                      (* child_process.rs:27 *)

(** A critical section on one slot; with an index out of range nothing is locked ([self.slots[slot_id]]
    panics: lib.rs:77, 93). *)
Definition on_slot (s : N) : list lop :=
  if (s <? slot_size)%N then [Lock (KSlot s); Unlock (KSlot s)] else [].
(** expire.rs:177-186: the queue lock is held during the visits of the slots. *)
Definition scan_code (slots : list N) : list lop := Lock KQueue :: flat_map on_slot slots ++ [Unlock KQueue].

(** The lock operations of a job, in order. *)
Definition code (j : job) : list lop :=
  match j with
  | JCmd slots => flat_map on_slot slots
  | JForward s => on_slot s
  | JReplace s => on_slot s
  | JFlushall scan => flat_map on_slot all_slots ++ match scan with Some slots => scan_code slots | None => [] end
  | JScan slots => scan_code slots
  | JRecv => [Lock KQueue; Unlock KQueue]
  | JPurge slots =>
      (* expire.rs:132-145 and 149-165: the two locks are never held together *)
      flat_map (fun s => [Lock KQueue; Unlock KQueue] ++ on_slot s) slots ++ [Lock KQueue; Unlock KQueue]
  | JSnapshot slot =>
      (* syncsnapshot.rs:21-35 collects the guards in the order of the slots; 43 adds the child; the vector of
         guards is dropped at the end *)
      let slots := if (slot =? slot_size)%N then all_slots else if (slot <? slot_size)%N then [slot] else [] in
      map (fun s => Lock (KSlot s)) slots ++ [Lock KChild; Unlock KChild] ++ map (fun s => Unlock (KSlot s)) slots
  | JReap => [Lock KChild; Unlock KChild]
  end.

(** A task: what it still has to do, and what it holds.
    Threads of the server: slot.rs, expire.rs, child_process.rs. *)
Record task := Task { tk_todo : list lop; tk_held : list lk }.

(** A thread arrives, or the scheduler lets thread [i] go on (slot.rs, expire.rs, child_process.rs). *)
Inductive jevent :=
  | JStart (j : job)     (* a new task *)
  | JRun (i : nat).      (* task i takes its next step *)

(** Whether some task holds [k]. A parking_lot mutex is not reentrant (slot.rs:25). *)
Definition taken (k : lk) (ts : list task) : bool := existsb (fun t => bool_decide (k ∈ tk_held t)) ts.
(** Replaces task [i]. slot.rs, expire.rs. *)
Definition with_task (i : nat) (t : task) (ts : list task) : list task :=
  firstn i ts ++ t :: skipn (Datatypes.S i) ts.

(** The transition function; [None]: the event is not enabled.  A task that wants a lock held by anyone
    (itself included) waits. slot.rs, expire.rs, child_process.rs. *)
Definition jstep (ev : jevent) (ts : list task) : option (list task) :=
  match ev with
  | JStart j => Some (ts ++ [Task (code j) []])
  | JRun i =>
      match nth_error ts i with
      | Some (Task (Lock k :: r) held) => if taken k ts then None else Some (with_task i (Task r (k :: held)) ts)
      | Some (Task (Unlock k :: r) held) => Some (with_task i (Task r (List.remove lk_eq_dec k held)) ts)
      | _ => None
      end
  end.

(** An execution. slot.rs, expire.rs, child_process.rs. *)
Fixpoint jsteps (evs : list jevent) (ts : list task) : option (list task) :=
  match evs with
  | [] => Some ts
  | ev :: evs' => match jstep ev ts with Some ts' => jsteps evs' ts' | None => None end
  end.
