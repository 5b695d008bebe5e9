(** A field of a hash that clients use as a lock. *)
From Verif Require Export SpecShared.

(** Requests that try to take the lock, field [f] of the hash under [k], and requests that leave [k] alone. *)
Definition lock_use (k f : bytes) (q : request) : Prop :=
  (exists x, q = QHsetnx k f x) \/ (forall sync, q <> QFlushall sync) /\ ~ In k (may_change q).
(** The request tries to take the lock; it does so and is told that it has it. *)
Definition tries (k f : bytes) (q : request) : bool :=
  match q with QHsetnx j g _ => bool_decide (j = k) && bool_decide (g = f) | _ => false end.
Definition wins (k f : bytes) (q : request) (r : frame) : bool :=
  tries k f q && match r with FInteger z => (z =? 1)%Z | _ => false end.
(** The lock is free: there is no such key, or a hash without deadline and without the field. *)
Definition lock_free (m : store) (k f : bytes) : Prop := m k = None \/ exists h, m k = Some (DKvp h, 0%N) /\ h !! f = None.
Definition lock_taken (m : store) (k f : bytes) : Prop := exists h, m k = Some (DKvp h, 0%N) /\ is_Some (h !! f).
