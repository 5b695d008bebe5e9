(** What is claimed about the whole process, in terms of what arrives at its sockets. *)
From Verif Require Export Process SpecLeader.

(** The pieces that have arrived at socket [i]. *)
Definition arrived (i : nat) (evs : list (N * pevent)) : list bytes :=
  flat_map (fun ev => match snd ev with PArrive j c => if Nat.eqb j i then [c] else [] | _ => [] end) evs.
(** The network, not the client or the server, has ended the connection. *)
Definition failed (i : nat) (evs : list (N * pevent)) : Prop :=
  exists t, In (t, PReset i) evs \/ exists n, In (t, PBreak i n) evs.
(** The client at socket [i] has closed its side. *)
Definition closed (i : nat) (evs : list (N * pevent)) : Prop := exists t, In (t, PFin i) evs.
(** Handler [i] waits for bytes: it can do nothing, now or later, until something arrives. *)
Definition waits (en : env) (x : process) (i : nat) : Prop :=
  (forall s k, pr_socks x !! i = Some s -> cs_conns (ld_cl (pr_ld x)) !! i = Some k -> over s k = None) /\
  forall now, pstep en (now, PRead i) x = None /\ pstep en (now, PConn i) x = None.
(** The steps of handler [i]. *)
Definition own (i : nat) (e : pevent) : bool := match e with PRead j | PConn j => Nat.eqb j i | _ => false end.
(** The steps of the server behind the sockets. *)
Definition behind (evs : list (N * pevent)) : list (N * turn) :=
  flat_map (fun ev => match snd ev with PConn i => [(fst ev, LConn i)] | PTask u => [(fst ev, u)] | _ => [] end) evs.
(** Handler [i] has not ended. *)
Definition live (x : process) (i : nat) : Prop :=
  exists s k, pr_socks x !! i = Some s /\ cs_conns (ld_cl (pr_ld x)) !! i = Some k /\ over s k = None.
