(** The process that sends a snapshot: the socket it writes to (component/server/src/cmd/syncsnapshot.rs:51-69)
    and the table of such processes (component/db/src/child_process.rs).
    Simplifications: the kernel's send buffer is a number of bytes, [cap] of which fit; the network takes bytes out of
    it at any moment; EINTR is left out (std retries). *)
From Verif Require Export Snapshot.

(** ** Sending *)

(** [write] on a socket that does not block, with [fill] bytes in the buffer: the number of bytes taken, or
    [WouldBlock].  The stream comes from tokio, which sets O_NONBLOCK, and [into_std] does not undo it
    (syncsnapshot.rs:52). *)
Definition sock_write (cap fill : nat) (buf : bytes) : option nat :=
  if cap <=? fill then None else Some (min (cap - fill) (length buf)).

(** std's [Write::write_all], which bincode calls for every field (syncsnapshot.rs:55-60).  Before write number
    [i] the network takes [dr i] bytes.  The bytes taken, the fill, the number of writes, and whether the
    result is [Ok]. *)
Fixpoint write_all (fuel cap : nat) (dr : nat -> nat) (fill i : nat) (buf : bytes) : bytes * nat * nat * bool :=
  match buf, fuel with
  | [], _ => ([], fill, i, true)
  | _, O => ([], fill, i, false)
  | _, S fuel' =>
      let fill1 := fill - dr i in
      match sock_write cap fill1 buf with
      | None => ([], fill1, S i, false)
      | Some n =>
          let '(out, fill2, i2, ok) := write_all fuel' cap dr (fill1 + n) (S i) (skipn n buf) in
          (firstn n buf ++ out, fill2, i2, ok)
      end
  end.

(** syncsnapshot.rs:51-62: the first error ends the transfer; the process exits (line 69) and the socket is closed
    behind the bytes that were taken. *)
Fixpoint send_pieces (cap : nat) (dr : nat -> nat) (fill i : nat) (pieces : list bytes) : bytes * bool :=
  match pieces with
  | [] => ([], true)
  | p :: ps =>
      let '(out, fill1, i1, ok) := write_all (length p) cap dr fill i p in
      if ok then let '(rest, ok') := send_pieces cap dr fill1 i1 ps in (out ++ rest, ok') else (out, false)
  end.

(** ** The table of processes *)

(** child_process.rs:11-14 and the kernel: the processes that run, those that have ended and were not waited for
    ([true]: by [exit], [false]: by a signal), those that were forked and not yet entered, and the table. *)
Record kids := Kids { k_live : list N; k_zombies : list (N * bool); k_new : list N; k_tab : gset N }.
(** Before the first snapshot. child_process.rs:11-14 *)
Definition kids_empty : kids := Kids [] [] [] ∅.

Inductive kevent :=
  | KFork (pid : N)               (* syncsnapshot.rs:37: the kernel picks a pid that is not in use *)
  | KAdd (pid : N)                (* syncsnapshot.rs:43, child_process.rs:43-46 *)
  | KEnd (pid : N) (exited : bool)(* syncsnapshot.rs:69, or a signal *)
  | KTurn (pid : N)               (* child_process.rs:24-34: waitpid reports process [pid] *)
  | KIdle.                        (* child_process.rs:37, 39: no process has ended *)

(** Takes out the first occurrence. std HashMap remove; kernel process table (child_process.rs). *)
Fixpoint take_out (x : N) (l : list N) : list N :=
  match l with [] => [] | y :: l' => if (x =? y)%N then l' else y :: take_out x l' end.
(** Is the number in the list? kernel process table (child_process.rs). *)
Definition is_in (x : N) (l : list N) : bool := existsb (N.eqb x) l.

(** child_process.rs:22-46 and syncsnapshot.rs:37-69; [None]: the event is not enabled. *)
Definition kstep (ev : kevent) (k : kids) : option kids :=
  let 'Kids live zs new tab := k in
  match ev with
  | KFork p => if is_in p live || is_in p (map fst zs) then None else Some (Kids (p :: live) zs (p :: new) tab)
  | KAdd p => if is_in p new then Some (Kids live zs (take_out p new) ({[ p ]} ∪ tab)) else None
  | KEnd p e => if is_in p live then Some (Kids (take_out p live) (zs ++ [(p, e)]) new tab) else None
  | KTurn p =>
      match find (fun z => (p =? fst z)%N) zs with
      | Some (_, e) => Some (Kids live (List.filter (fun z => negb (p =? fst z)%N) zs) new (if e then tab ∖ {[ p ]} else tab))
      | None => None
      end
  | KIdle => match zs with [] => Some k | _ => None end
  end.
(** An execution. child_process.rs, syncsnapshot.rs *)
Fixpoint ksteps (evs : list kevent) (k : kids) : option kids :=
  match evs with
  | [] => Some k
  | ev :: evs' => match kstep ev k with Some k' => ksteps evs' k' | None => None end
  end.
