(** Specification vocabulary for replication: histories of one slot, their write commands and the
    instants at which they happened.  Nothing here refers to how a command is executed. *)
From Verif Require Export Replica Follower FanOut SpecSimple.

(** The write commands of a history, in order, and the instants of their execution. *)
Fixpoint writes (h : list (N * sop)) : list wreq :=
  match h with
  | [] => []
  | (_, SWrite w) :: h' => w :: writes h'
  | _ :: h' => writes h'
  end.
Fixpoint write_times (h : list (N * sop)) : list N :=
  match h with
  | [] => []
  | (t, SWrite _) :: h' => t :: write_times h'
  | _ :: h' => write_times h'
  end.
Definition no_flush (h : list (N * sop)) : Prop := Forall (fun p => snd p <> SFlush) h.
Definition is_restore (w : wreq) : bool := match w with WRestore _ => true | _ => false end.
Definition no_restore (ws : list wreq) : Prop := Forall (fun w => is_restore w = false) ws.

(** What may happen to a follower of a leader with history [h]: any message that the leader sent, any
    number of times and in any order; snapshots of the leader's slot taken at any moment; reads and
    purges at any time.  Clients do not write to the follower. *)
Definition from_leader (ho : horder) (slot : N) (h : list (N * sop)) (o : fop) : Prop :=
  match o with
  | FDeliver m => In m (slot_sent ho slot h dict_empty)
  | FInstall d => exists p q, h = p ++ q /\ d = slot_run ho slot p dict_empty
  | FClient _ => False
  | FRead _ | FPurge _ => True
  end.


(** ** Clocks *)
(** Instants of a history never step back, start at [t] or later and end at [T] or earlier. *)
Fixpoint forward_from (t : N) (h : list (N * sop)) (T : N) : Prop :=
  match h with
  | [] => (t <= T)%N
  | (u, _) :: h' => (t <= u)%N /\ forward_from u h' T
  end.
(** The purge only looks at entries whose deadline has been reached. *)
Definition purges_due (h : list (N * sop)) : Prop :=
  Forall (fun p => match snd p with SPurge e => (0 < en_at e <= fst p)%N | _ => True end) h.

(** The deadline that a command names. *)
Definition names_deadline (w : wreq) (e : N) : Prop :=
  match w with
  | WSet _ _ (Specific e') _ => e = e'
  | WExpire _ e' _ _ => e = e'
  | _ => False
  end.
(** All deadlines that can come up. *)
Definition deadlines (d : dict) (ws : list wreq) (e : N) : Prop :=
  (exists k x, contents d k = Some (x, e)) \/ (exists w, In w ws /\ names_deadline w e).
(** Two instants are on the same side of all of them. *)
Definition same_side (D : N -> Prop) (t t' : N) : Prop := forall e, D e -> (lives t e <-> lives t' e).

(** ** Fan-out *)
(** The messages taken from the forward channel, and those taken after connection number [i] was
    accepted. *)
Fixpoint pushes (evs : list oevent) : list fwd_msg :=
  match evs with
  | [] => []
  | OPush m :: evs' => m :: pushes evs'
  | _ :: evs' => pushes evs'
  end.
Fixpoint since (i : nat) (evs : list oevent) : list fwd_msg :=
  match evs with
  | [] => []
  | OJoin :: evs' => match i with O => pushes evs' | S i' => since i' evs' end
  | _ :: evs' => since i evs'
  end.
(** What was written to a connection, apart from the answers to pings (no command, number 0). *)
Definition is_ping (m : fwd_msg) : bool := (fm_id m =? 0)%N && match fm_cmd m with None => true | Some _ => false end.
Definition payload (ms : list fwd_msg) : list fwd_msg := List.filter (fun m => negb (is_ping m)) ms.

(** ** Snapshots *)
(** What a follower would read from a stream mentions slot [j]. *)
Inductive offers : bytes -> N -> Prop :=
  | off_here s j d r : read_item s = IInstall j d r -> offers s j
  | off_later s i d r j : read_item s = IInstall i d r -> offers r j -> offers s j.

(** Instants that never step back, from [t] to [T]. *)
Fixpoint times_forward (t : N) (ts : list N) (T : N) : Prop :=
  match ts with [] => (t <= T)%N | u :: ts' => (t <= u)%N /\ times_forward u ts' T end.
