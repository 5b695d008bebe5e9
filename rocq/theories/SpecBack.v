(** What is claimed about the background tasks of a whole server: the vocabulary of SpecExpire.v, spoken about
    executions of Leader.v. *)
From Verif Require Export Leader SpecExpire.

(** What slot [s] of the server stores under a key, and its deadline (0: none, or no such key). *)
Definition kept (x : leader) (s : N) (k : bytes) : option (data * N) := contents (cs_db (ld_cl x) s) k.
Definition kept_until (x : leader) (s : N) (k : bytes) : N := deadline (cs_db (ld_cl x) s) k.

(** The notifications that a connection has still to send. *)
Definition to_tell (k : client) : list exp_msg := match k_pc k with KSend _ _ _ es _ _ => es | _ => [] end.
(** It is in the middle of FLUSHALL. *)
Definition flushing (k : client) : bool := match k_pc k with KFlush _ => true | _ => false end.
(** A notification about slot [s] has not been sent yet. *)
Definition untold (x : leader) (s : N) : Prop := exists k u, In k (cs_conns (ld_cl x)) /\ In (XUpdate s u) (to_tell k).
(** The write that connection [i] is about to execute does not overtake a notification about its slot. *)
Definition polite (u : turn) (x : leader) : Prop :=
  match u with
  | LConn i => forall k q w cs rs, cs_conns (ld_cl x) !! i = Some k -> k_pc k = KRun q (CWrite w :: cs) rs -> ~ untold x (get_slot (wkey w))
  | _ => True
  end.
Fixpoint all_polite (en : env) (evs : list (N * turn)) (x : leader) : Prop :=
  match evs with
  | [] => True
  | ev :: evs' => polite (snd ev) x /\ match leader_step en ev x with Some x' => all_polite en evs' x' | None => True end
  end.
(** The latest instant at which the purge task or a scan has read the clock to compare deadlines with it. *)
Definition glance (ev : N * turn) (x : leader) : N :=
  match snd ev with
  | LPurge => match ld_purge x with PStart => fst ev | _ => 0%N end
  | LVisit => fst ev
  | _ => 0%N
  end.
Fixpoint glances (en : env) (evs : list (N * turn)) (x : leader) : N :=
  match evs with
  | [] => 0%N
  | ev :: evs' => N.max (glance ev x) (match leader_step en ev x with Some x' => glances en evs' x' | None => 0%N end)
  end.
(** Everything has been said and heard: nothing to send, no FLUSHALL on its way, no scan asked for, no message waiting. *)
Definition all_told (x : leader) : Prop :=
  Forall (fun k => to_tell k = [] /\ flushing k = false) (cs_conns (ld_cl x)) /\ ld_scans x = O /\ cs_exp (ld_cl x) = [].
(** Nothing is going to wake the purge task before its timer. *)
Definition undisturbed (x : leader) : Prop := ld_permit x = false /\ ld_note x = false.

(** The number of FLUSHALL requests. *)
Definition flush_count (l : list request) : nat := length (List.filter (fun q => match q with QFlushall _ => true | _ => false end) l).
(** The number of scans that have begun. *)
Definition scan_count (evs : list (N * turn)) : nat := length (List.filter (fun ev => match snd ev with LScan => true | _ => false end) evs).

(** A server as a world of Expire.v: every connection that has something to send or to flush is a thread, and so is
    every scan that waits for the queue. *)
Definition k_thread (k : client) : list (list act) :=
  match k_pc k with
  | KSend _ _ _ (m :: es) _ _ => [map ASend (m :: es)]
  | KFlush ss => [map AFlush ss ++ [AScan]]
  | _ => []
  end.
Definition threads_of (x : leader) : list (list act) := flat_map k_thread (cs_conns (ld_cl x)) ++ repeat [AScan] (ld_scans x).
Record same_world (x : leader) (w : world) : Prop := SameWorld {
  sw_db : w_db w = cs_db (ld_cl x);
  sw_queue : w_queue w = ld_queue x;
  sw_scan : w_scan w = ld_scan x;
  sw_chan : w_chan w = cs_exp (ld_cl x);
  sw_threads : Permutation (w_threads w) (threads_of x);
  sw_note : w_note w = ld_note x;
  sw_permit : w_permit w = ld_permit x;
  sw_purge : w_purge w = ld_purge x }.
(** The readings of the clock in an execution of Expire.v. *)
Definition ticks (evs : list event) : list N := flat_map (fun ev => match ev with ETick t => [t] | _ => [] end) evs.
