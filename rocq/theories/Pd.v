(** component/pd/src/status.rs, component/common/src/pd_message.rs and component/db/src/pd_handle/mod.rs: the
    placement driver, and what the servers make of its answers.
    Simplifications: socket addresses are numbers; ids and times do not overflow (a u64 of milliseconds and a
    usize counter); the encoding of the messages between a server and the driver and the restart of the driver
    are in PdWire.v (a message that does not decode ends the heartbeat task, [SLost]). *)
From Verif Require Export Bytes.

(** pd_message.rs:22-26 *)
Inductive role := Leader | Follower.
Global Instance role_eq_dec : EqDecision role.
Proof. solve_decision. Defined.

(** pd_message.rs:50-55 *)
Record leader_info := LeaderInfo { li_id : N; li_server : N; li_forward : N }.
Global Instance leader_info_eq_dec : EqDecision leader_info.
Proof. solve_decision. Defined.

(** pd_message.rs:41-48 *)
Record status := Status { st_server : N; st_group : N; st_role : role; st_leader : option leader_info }.
Global Instance status_eq_dec : EqDecision status.
Proof. solve_decision. Defined.
(** The derived [Default], pd_message.rs:28-33, 41 *)
Definition status_default : status := Status 0 0 Leader None.

(** status.rs:33-45 *)
Record server := Server {
  sv_id : N; sv_beat : N; sv_role : role; sv_server : N; sv_forward : N; sv_join : N }.
(** status.rs:22-31 *)
Record group := Group { gr_id : N; gr_latest : N; gr_servers : list server; gr_leader : option leader_info }.
(** status.rs:12-17 *)
Record pd := Pd { pd_latest : N; pd_groups : list group }.
(** The derived [Default], status.rs:12 *)
Definition pd_empty : pd := Pd 0 [].

(** status.rs:184-193 *)
Definition group_new (id : N) : group := Group id 0 [] None.
(** status.rs:47-51 *)
Definition create_group (p : pd) : pd :=
  let id := (pd_latest p + 1)%N in Pd id (pd_groups p ++ [group_new id]).

(** [iter_mut().find(..)] followed by an update of what was found (status.rs:56-62, 115-117, 152-154). *)
Fixpoint update_first {A} (c : A -> bool) (g : A -> A) (l : list A) : list A :=
  match l with
  | [] => []
  | x :: r => if c x then g x :: r else x :: update_first c g r
  end.

(** status.rs:80-84, 173-177 *)
Definition info_of (s : server) : leader_info := LeaderInfo (sv_id s) (sv_server s) (sv_forward s).
(** status.rs:64, 152: [t.role == ServerRole::Leader] *)
Definition is_leader (s : server) : bool := bool_decide (sv_role s = Leader).
(** status.rs:154, 172: assignment to the field [role]. *)
Definition with_role (r : role) (s : server) : server :=
  Server (sv_id s) (sv_beat s) r (sv_server s) (sv_forward s) (sv_join s).
(** status.rs:117: assignment to the field [latest_heartbeat]. *)
Definition with_beat (t : N) (s : server) : server :=
  Server (sv_id s) t (sv_role s) (sv_server s) (sv_forward s) (sv_join s).
(** Assignment to the field [servers]. *)
Definition with_servers (l : list server) (g : group) : group := Group (gr_id g) (gr_latest g) l (gr_leader g).
(** status.rs:86-91, 118-123 *)
Definition status_of (g : group) (s : server) : status := Status (sv_id s) (gr_id g) (sv_role s) (gr_leader g).

(** The closure of status.rs:62-94: the new group and the answer. *)
Definition group_join (now sa fa : N) (g : group) : group * status :=
  let id := (gr_latest g + 1)%N in
  let r := if existsb is_leader (gr_servers g) then Follower else Leader in
  let s := Server id now r sa fa now in
  let g1 := Group (gr_id g) id (gr_servers g ++ [s])
              (match r with Leader => Some (info_of s) | Follower => gr_leader g end) in
  (g1, status_of g1 s).

(** status.rs:54-96; [None] is the error "group not exists.". *)
Definition server_init (now gid sa fa : N) (p : pd) : pd * option status :=
  match find (fun g => gr_id g =? gid)%N (pd_groups p) with
  | None => (p, None)
  | Some g =>
      (Pd (pd_latest p) (update_first (fun g => gr_id g =? gid)%N (fun g => fst (group_join now sa fa g)) (pd_groups p)),
       Some (snd (group_join now sa fa g)))
  end.

(** status.rs:114-127 *)
Definition heartbeat_server (now gid sid : N) (p : pd) : pd * option status :=
  match find (fun g => gr_id g =? gid)%N (pd_groups p) with
  | None => (p, None)
  | Some g =>
      match find (fun s => sv_id s =? sid)%N (gr_servers g) with
      | None => (p, None)
      | Some s =>
          (Pd (pd_latest p)
             (update_first (fun g => gr_id g =? gid)%N
                (fun g => with_servers (update_first (fun s => sv_id s =? sid)%N (with_beat now) (gr_servers g)) g)
                (pd_groups p)),
           Some (status_of g s))
      end
  end.

(** status.rs:131-139 *)
Definition server_heartbeat (now : N) (data : status) (p : pd) : pd * option status :=
  let '(p', o) := heartbeat_server now (st_group data) (st_server data) p in
  match o with
  | None => (p', None)
  | Some res => (p', if bool_decide (data = res) then None else Some res)
  end.

(** status.rs:144 *)
Definition dead_after : N := 3000.
(** status.rs:163: [now <= ts + s.latest_heartbeat] *)
Definition beating (now : N) (s : server) : bool := (now <=? dead_after + sv_beat s)%N.

(** The loop of status.rs:160-170.  The candidate is kept with its position, in place of a mutable
    reference to it. *)
Fixpoint pick (now : N) (i : nat) (acc : option (nat * server)) (l : list server) : option (nat * server) :=
  match l with
  | [] => acc
  | s :: r =>
      pick now (Datatypes.S i)
        (if beating now s && bool_decide (sv_role s = Follower) then
           match acc with
           | Some (_, b) => if (sv_join s <? sv_join b)%N then Some (i, s) else acc
           | None => Some (i, s)
           end
         else acc) r
  end.

(** Assignment through a reference to the element at position [i] (status.rs:172). *)
Fixpoint update_at {A} (i : nat) (g : A -> A) (l : list A) {struct l} : list A :=
  match l with
  | [] => []
  | x :: r => match i with O => g x :: r | Datatypes.S j => x :: update_at j g r end
  end.

(** status.rs:159-179 *)
Definition elect (now : N) (g : group) : group :=
  match pick now 0 None (gr_servers g) with
  | None => g
  | Some (i, s) => Group (gr_id g) (gr_latest g) (update_at i (with_role Leader) (gr_servers g)) (Some (info_of s))
  end.

(** status.rs:151-179, the body of the loop over the groups. *)
Definition check_group (now : N) (g : group) : group :=
  match find is_leader (gr_servers g) with
  | None => elect now g
  | Some l =>
      if (dead_after + sv_beat l <? now)%N
      then elect now (with_servers (update_first is_leader (with_role Follower) (gr_servers g)) g)
      else g
  end.

(** status.rs:146-180, one iteration of the loop of server_survival_check. *)
Definition survival_check (now : N) (p : pd) : pd := Pd (pd_latest p) (map (check_group now) (pd_groups p)).

(** ** The servers *)

(** pd_handle/mod.rs:28-33 and the parts of the replication task it drives.  [nd_given] is not in the code:
    it records the driver's answer to the server's request to join, so that it can be said which server of
    which group a node is. *)
Record node := Node {
  nd_given : status;
  nd_latest : status;               (* latest_status *)
  nd_target : option leader_info;   (* replica.rs:28 *)
  nd_rx : bool;                     (* replica.rs:25: cmd_rx is not None *)
  nd_wait : option (option status); (* mod.rs:78: the answer to a heartbeat, under way *)
  nd_beats : bool }.                (* the heartbeat task runs *)

(** mod.rs:87-108.  [snap] and [cmd]: whether sync_all_snapshot (refused while a transfer is running,
    replica.rs:43-50) and sync_cmd (a connection attempt, replica.rs:115-119) succeed.  The boolean is
    whether the result is [Ok]. *)
Definition update_status (snap cmd : bool) (st : status) (n : node) : node * bool :=
  let lat := nd_latest n in
  if bool_decide (st_role st = Follower) && negb (bool_decide (st_leader lat = st_leader st)) then
    if snap && cmd then (Node (nd_given n) st (st_leader st) true (nd_wait n) (nd_beats n), true)
    else (Node (nd_given n) lat (st_leader st) (nd_rx n) (nd_wait n) (nd_beats n), false)
  else if bool_decide (st_role lat = Follower) && bool_decide (st_role st = Leader) then
    (Node (nd_given n) st (nd_target n) false (nd_wait n) (nd_beats n), true)
  else (n, true).

(** The driver and the servers that have joined. pd/src/status.rs, db/src/pd_handle/mod.rs. *)
Record cluster := Cluster { cl_pd : pd; cl_nodes : list node }.
(** Before any server has joined (status.rs). *)
Definition cl_empty : cluster := Cluster pd_empty [].

Inductive cevent :=
  | SCreate                                        (* pd/src/cmd.rs:22-25 *)
  | SJoin (now gid sa fa : N) (snap cmd : bool)    (* mod.rs:36-55 *)
  | SBeat (now : N) (i : nat)                      (* node i sends a heartbeat and the driver answers, mod.rs:72-77 *)
  | SApply (i : nat) (snap cmd : bool)             (* node i processes the answer, mod.rs:78-83 *)
  | SLost (i : nat)                                (* an error ends the heartbeat task of node i, mod.rs:49-53 *)
  | SCheck (now : N).                              (* status.rs:146-180 *)

(** mod.rs:36-55 after the answer has arrived.  When update_status fails the process exits (lib.rs:64-67). *)
Definition node_start (snap cmd : bool) (st : status) : node :=
  let '(n, ok) := update_status snap cmd st (Node st status_default None false None true) in
  Node (nd_given n) (nd_latest n) (nd_target n) (nd_rx n) None ok.

(** mod.rs:72-77: writes latest_status and waits for the answer. *)
Definition node_beat (now : N) (p : pd) (n : node) : option (pd * node) :=
  if nd_beats n then
    match nd_wait n with
    | Some _ => None
    | None =>
        let '(p', o) := server_heartbeat now (nd_latest n) p in
        Some (p', Node (nd_given n) (nd_latest n) (nd_target n) (nd_rx n) (Some o) true)
    end
  else None.

(** mod.rs:78-83: an error of update_status is only logged. *)
Definition node_apply (snap cmd : bool) (n : node) : option node :=
  if nd_beats n then
    match nd_wait n with
    | None => None
    | Some o =>
        let m := Node (nd_given n) (nd_latest n) (nd_target n) (nd_rx n) None true in
        match o with
        | None => Some m
        | Some st => Some (fst (update_status snap cmd st m))
        end
    end
  else None.

(** mod.rs:49-53 *)
Definition node_lost (n : node) : option node :=
  if nd_beats n then Some (Node (nd_given n) (nd_latest n) (nd_target n) (nd_rx n) None false) else None.

(** Applies a step of node [i]. pd_handle/mod.rs. *)
Definition at_node (i : nat) (g : node -> option node) (l : list node) : option (list node) :=
  match nth_error l i with
  | Some n => match g n with Some n' => Some (update_at i (fun _ => n') l) | None => None end
  | None => None
  end.

(** status.rs and mod.rs: the transition function of driver and servers; [None]: the event is not enabled. *)
Definition cstep (ev : cevent) (c : cluster) : option cluster :=
  let 'Cluster p l := c in
  match ev with
  | SCreate => Some (Cluster (create_group p) l)
  | SJoin now gid sa fa snap cmd =>
      let '(p', o) := server_init now gid sa fa p in
      match o with
      | None => Some (Cluster p' l)
      | Some st => Some (Cluster p' (l ++ [node_start snap cmd st]))
      end
  | SBeat now i =>
      match nth_error l i with
      | Some n =>
          match node_beat now p n with
          | Some (p', n') => Some (Cluster p' (update_at i (fun _ => n') l))
          | None => None
          end
      | None => None
      end
  | SApply i snap cmd => option_map (Cluster p) (at_node i (node_apply snap cmd) l)
  | SLost i => option_map (Cluster p) (at_node i node_lost l)
  | SCheck now => Some (Cluster (survival_check now p) l)
  end.

(** An execution. status.rs, pd_handle/mod.rs. *)
Fixpoint csteps (evs : list cevent) (c : cluster) : option cluster :=
  match evs with
  | [] => Some c
  | ev :: evs' => match cstep ev c with Some c' => csteps evs' c' | None => None end
  end.
