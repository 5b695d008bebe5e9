(** What the claims about the placement driver are stated with. *)
From Verif Require Import Pd.

(** No two different entries of the server list have the leader role. *)
Definition one_leader (g : group) : Prop :=
  forall i j s t, nth_error (gr_servers g) i = Some s -> nth_error (gr_servers g) j = Some t ->
    sv_role s = Leader -> sv_role t = Leader -> i = j.
(** The server with the leader role, if there is one, is the advertised leader. *)
Definition advertised (g : group) : Prop :=
  forall s, In s (gr_servers g) -> sv_role s = Leader ->
    gr_leader g = Some (LeaderInfo (sv_id s) (sv_server s) (sv_forward s)).
(** What is advertised is the address of some server of the group. *)
Definition advertises_member (g : group) : Prop :=
  forall li, gr_leader g = Some li ->
    exists s, In s (gr_servers g) /\ sv_id s = li_id li /\ sv_server s = li_server li /\ sv_forward s = li_forward li.

(** States reached by the driver and its servers from the start. *)
Definition reached (c : cluster) : Prop := exists evs, csteps evs cl_empty = Some c.

(** The group and server ids handed out by the driver during an execution, in order. *)
Fixpoint handed_out (evs : list cevent) (c : cluster) : list (N * N) :=
  match evs with
  | [] => []
  | ev :: r =>
      match cstep ev c with
      | None => []
      | Some c' =>
          match ev with
          | SJoin now gid sa fa _ _ =>
              match snd (server_init now gid sa fa (cl_pd c)) with
              | Some st => [(st_group st, st_server st)]
              | None => []
              end
          | _ => []
          end ++ handed_out r c'
      end
  end.
(** The number of groups created during an execution. *)
Definition creations (evs : list cevent) : nat :=
  length (List.filter (fun ev => match ev with SCreate => true | _ => false end) evs).

(** ** Failover *)
Definition alive (now : N) (s : server) : Prop := (now <= sv_beat s + 3000)%N.
(** [s], at position [i], has joined before [t], at position [j] (or at the same time, and stands first). *)
Definition before (i : nat) (s : server) (j : nat) (t : server) : Prop :=
  (sv_join s < sv_join t)%N \/ sv_join s = sv_join t /\ i <= j.
Definition same_but_role (s t : server) : Prop :=
  sv_id s = sv_id t /\ sv_beat s = sv_beat t /\ sv_server s = sv_server t /\ sv_forward s = sv_forward t /\
  sv_join s = sv_join t.
(** [i] is the position of the live follower that joined first. *)
Definition oldest (now : N) (g : group) (i : nat) (s : server) : Prop :=
  nth_error (gr_servers g) i = Some s /\ sv_role s = Follower /\ alive now s /\
  forall j t, nth_error (gr_servers g) j = Some t -> sv_role t = Follower -> alive now t -> before i s j t.

Definition leader_alive (now : N) (g : group) : Prop :=
  exists s, In s (gr_servers g) /\ sv_role s = Leader /\ alive now s.
(** What a survival check may do to a group. *)
Definition checked (now : N) (g g' : group) : Prop :=
  gr_id g' = gr_id g /\ gr_latest g' = gr_latest g /\ Forall2 same_but_role (gr_servers g') (gr_servers g) /\
  (leader_alive now g -> g' = g) /\
  (~ leader_alive now g ->
     (forall i s, oldest now g i s ->
        gr_leader g' = Some (LeaderInfo (sv_id s) (sv_server s) (sv_forward s)) /\
        forall j t, nth_error (gr_servers g') j = Some t -> (sv_role t = Leader <-> j = i)) /\
     ((forall i s, ~ oldest now g i s) ->
        gr_leader g' = gr_leader g /\ forall t, In t (gr_servers g') -> sv_role t = Follower)).

(** ** Servers *)

(** The driver's view of server [sid] of group [gid]. *)
Definition pd_view (p : pd) (gid sid : N) (st : status) : Prop :=
  exists g s, In g (pd_groups p) /\ In s (gr_servers g) /\ gr_id g = gid /\ sv_id s = sid /\
    st = Status sid gid (sv_role s) (gr_leader g).
(** A server believes to be leader. *)
Definition believes (n : node) : Prop := st_role (nd_latest n) = Leader.
(** A server knows the id that it was given. *)
Definition knows_id (n : node) : Prop :=
  st_group (nd_latest n) = st_group (nd_given n) /\ st_server (nd_latest n) = st_server (nd_given n).
(** Another heartbeat of node [i], answered and processed, teaches it nothing. *)
Definition settled (c : cluster) (i : nat) : Prop :=
  forall now n c1 c2 n2, nth_error (cl_nodes c) i = Some n ->
    cstep (SBeat now i) c = Some c1 -> cstep (SApply i true true) c1 = Some c2 ->
    nth_error (cl_nodes c2) i = Some n2 -> nd_latest n2 = nd_latest n.
