(** What the claims about the connection limit and about locks are stated with. *)
From Verif Require Import Limit Locks.

(** The permit that the listener holds between acquire and the start of the handler. *)
Definition in_flight (x : limits) : N := match lm_phase x with LAccept _ | LSleep _ => 1 | _ => 0 end.
Definition handlers_alive (x : limits) : N := N.of_nat (length (lm_handlers x)).

(** Task [i] waits for a lock that task [j] holds. *)
Definition waits_for (ts : list task) (i j : nat) : Prop :=
  exists k r h t, nth_error ts i = Some (Task (Lock k :: r) h) /\ nth_error ts j = Some t /\ In k (tk_held t).
(** A deadlock: a set of tasks each of which waits for a lock held by a task of the set. *)
Definition deadlock (ts : list task) (D : nat -> Prop) : Prop :=
  (exists i, D i) /\ forall i, D i -> exists j, D j /\ waits_for ts i j.
(** Nothing left to do, nothing held. *)
Definition finished (t : task) : Prop := tk_todo t = [] /\ tk_held t = [].
(** No lock has two holders. *)
Definition exclusive (ts : list task) : Prop :=
  forall i j s t k, nth_error ts i = Some s -> nth_error ts j = Some t -> In k (tk_held s) -> In k (tk_held t) -> i = j.
