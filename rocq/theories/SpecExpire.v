(** Specification vocabulary for background expiry.  It speaks about executions (lists of events) and
    about what the database stores, not about the queue operations. *)
From Verif Require Export Expire SpecSimple.

(** What slot [s] stores under a key, and its deadline (0: none, or no such key). *)
Definition stored (x : world) (s : N) (k : bytes) : option (data * N) := contents (w_db x s) k.
Definition due (x : world) (s : N) (k : bytes) : N := deadline (w_db x s) k.

(** The clock, [t] at the beginning, never steps back. *)
Fixpoint clock_forward (t : N) (evs : list event) : Prop :=
  match evs with
  | [] => True
  | ETick now :: evs' => (t <= now)%N /\ clock_forward now evs'
  | _ :: evs' => clock_forward t evs'
  end.
(** The largest reading of the clock. *)
Fixpoint peak (t : N) (evs : list event) : N :=
  match evs with
  | [] => t
  | ETick now :: evs' => N.max t (peak now evs')
  | _ :: evs' => peak t evs'
  end.

(** Events that do not come from a client, a replication stream or a snapshot. *)
Definition background (ev : event) : Prop :=
  match ev with
  | ECmd _ | EForward _ _ _ | EReplace _ _ | EFlushall => False
  | _ => True
  end.

(** The purge task has read the clock / the scan after FLUSHALL has read the clock: the largest such
    reading of an execution. *)
Definition look (ev : event) (x : world) : N :=
  match ev with
  | EPurge => match w_purge x with PStart => w_clock x | _ => 0%N end
  | EScan => w_clock x
  | _ => 0%N
  end.
Fixpoint looked (ho : horder) (evs : list event) (x : world) : N :=
  match evs with
  | [] => 0%N
  | ev :: evs' =>
      N.max (look ev x) (match step ho ev x with Some x' => looked ho evs' x' | None => 0%N end)
  end.

(** A command on slot [s] has left its critical section but has not sent its notification yet. *)
Definition in_flight (x : world) (s : N) : Prop :=
  exists t u, In t (w_threads x) /\ In (ASend (XUpdate s u)) t.
(** In-order delivery: no write command is executed on a slot, and the dictionary of a slot is not
    exchanged, while an earlier command on that slot has not sent its notification. *)
Definition waits (ev : event) (x : world) : Prop :=
  match ev with
  | ECmd (CWrite w) => ~ in_flight x (get_slot (wkey w))
  | EForward s _ _ => ~ in_flight x s
  | EThread i => match nth_error (w_threads x) i with
                 | Some (ASwap s _ :: _) => ~ in_flight x s
                 | _ => True
                 end
  | _ => True
  end.
Fixpoint in_order (ho : horder) (evs : list event) (x : world) : Prop :=
  match evs with
  | [] => True
  | ev :: evs' =>
      waits ev x /\ match step ho ev x with Some x' => in_order ho evs' x' | None => True end
  end.

(** Nothing is left to be delivered. *)
Definition settled (x : world) : Prop := w_threads x = [] /\ w_chan x = [].

(** The purge task is asleep and nothing is going to wake it before its timer: no permit is stored and
    the receive task is not about to store one. *)
Definition unattended (x : world) : Prop := w_permit x = false /\ w_note x = false.
