(** A server without a leader of its own, whole: the connections of Clients.v and the background tasks of Expire.v
    on one database and one pair of channels (db/src/lib.rs:45-72).
    Simplifications: the connection that sent FLUSHALL SYNC does not wait for the scan it has asked for (it may be answered
    before, so there are more executions here than in the code); what is sent to followers is only taken out of its channel
    (Forward.v says what becomes of it); the placement driver is in Pd.v. *)
From Verif Require Export Clients.

(** db/src/lib.rs:32-72 and server/src/lib.rs:143-168 *)
Record leader := Leader {
  ld_cl : clients;                (* connections, database and channels *)
  ld_queue : list entry;          (* db/src/lib.rs:36 *)
  ld_scan : option (list entry);  (* the queue lock is held by scan_all: entries still to be visited *)
  ld_scans : nat;                 (* calls of scan_all that wait for the queue lock, db/src/lib.rs:162-166 *)
  ld_note : bool;                 (* the receive task is about to call notify_one, expire.rs:89-91, 99 *)
  ld_permit : bool;               (* the permit stored in the Notify *)
  ld_purge : ppc }.               (* the purge task, expire.rs:105-173 *)

(** Who takes the next step: a connection, or one of the tasks spawned by expire.rs:46-51, db/src/lib.rs:165 and
    forward/mod.rs. *)
Inductive turn :=
  | LConn (i : nat)               (* connection i, server/src/lib.rs:218-257 *)
  | LScan                         (* a scan gets the queue lock, expire.rs:177 *)
  | LVisit                        (* the scan visits its next entry, or ends, expire.rs:178-186 *)
  | LRecv                         (* the receive task, expire.rs:59 *)
  | LNote                         (* the receive task calls notify_one, expire.rs:89-91, 99 *)
  | LPurge                        (* the purge task, expire.rs:105-173 *)
  | LWake                         (* its timer, expire.rs:120 *)
  | LSent.                        (* the forwarding task takes a message, forward/mod.rs:29-41 *)
(** The corresponding events of Expire.v (expire.rs). *)
Definition turn_event (u : turn) : option event :=
  match u with
  | LConn _ | LSent => None
  | LScan => Some (EThread 0)
  | LVisit => Some EScan
  | LRecv => Some ERecv
  | LNote => Some ENote
  | LPurge => Some EPurge
  | LWake => Some EWake
  end.

(** A background task steps as in Expire.v; waiting scans are threads there. expire.rs:105-187. *)
Definition task_step (ho : horder) (now : N) (ev : event) (x : leader) : option leader :=
  let 'Leader (Clients b xs fw ks) q sc n nt pm pc := x in
  match step ho ev (World now b q sc xs (repeat [AScan] n) nt pm pc) with
  | Some (World _ b' q' sc' xs' ts nt' pm' pc') => Some (Leader (Clients b' xs' fw ks) q' sc' (length ts) nt' pm' pc')
  | None => None
  end.

(** FLUSHALL is through with the slots: it asks for a scan. db/src/lib.rs:162-166. *)
Definition asks_scan (k : option client) : nat :=
  match k with Some (Client _ (KFlush []) _) => 1%nat | _ => 0%nat end.

(** One step of the server at instant [now]. db/src/lib.rs:45-72. *)
Definition leader_step (en : env) (ev : N * turn) (x : leader) : option leader :=
  let 'Leader cl q sc n nt pm pc := x in
  match snd ev with
  | LConn i =>
      match cstep en (i, fst ev) cl with
      | Some cl' => Some (Leader cl' q sc (asks_scan (cs_conns cl !! i) + n) nt pm pc)
      | None => None
      end
  | LSent =>
      match cs_fwd cl with
      | [] => None
      | _ :: fw => Some (Leader (Clients (cs_db cl) (cs_exp cl) fw (cs_conns cl)) q sc n nt pm pc)
      end
  | u => match turn_event u with Some e => task_step (e_ho en) (fst ev) e x | None => None end
  end.

(** An execution: instants and turns, in order. db/src/lib.rs:45-72. *)
Fixpoint leader_steps (en : env) (evs : list (N * turn)) (x : leader) : option leader :=
  match evs with
  | [] => Some x
  | ev :: evs' => match leader_step en ev x with Some x' => leader_steps en evs' x' | None => None end
  end.

(** The server has started on a database [b], and [ins] will arrive on its connections. db/src/lib.rs:45-72. *)
Definition leader_start (b : db) (ins : list (list request)) : leader :=
  Leader (cs_start b ins) [] None 0 false false PStart.
