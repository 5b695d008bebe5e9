(** What is claimed about a whole server: its background tasks are one more client. *)
From Verif Require Export Leader SpecFlush.

(** The steps of the connections alone. *)
Definition conn_turns (evs : list (N * turn)) : list (nat * N) :=
  flat_map (fun ev => match snd ev with LConn i => [(i, fst ev)] | _ => [] end) evs.
(** Nobody but [i]. *)
Definition all_but (i : nat) (evs : list (nat * N)) : list (nat * N) := List.filter (fun ev => negb (Nat.eqb (fst ev) i)) evs.
(** What the others did. *)
Definition others_did (i : nat) (l : list deed) : list deed := List.filter (fun d => negb (Nat.eqb (doer d) i)) l.
(** From time [t] on the stores cannot be told apart. *)
Definition agree (t : N) (m n : store) : Prop := forall t' k, (t <= t')%N -> later t' m k = later t' n k.
