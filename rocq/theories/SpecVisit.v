(** Specification vocabulary for the access statistics: only instants and observed numbers. *)
From Verif Require Export SpecDb.

(** The reads that do not count as an access. *)
Definition silent (c : cmd) : Prop :=
  match c with CRead (RTtl _) | CRead (RLastVisit _) | CRead (RVisitTimes _) => True | _ => False end.
(** Nothing but silent reads addresses the key. *)
Definition quiet (k : bytes) (h : list (N * cmd)) : Prop :=
  Forall (fun p => ckey (snd p) <> k \/ silent (snd p)) h.
(** A read that counts. *)
Definition accessing (k : bytes) (r : rreq) : Prop := rkey r = k /\ ~ silent (CRead r).

(** The frequency after an access that comes [gap] whole minutes after the previous one. *)
Definition freq_step (f gap : N) : N := N.min 65535 ((f - gap) + 1).
(** Two instants between which the 16-bit minute counter does not wrap. *)
Definition same_era (t0 t1 : N) : Prop := (t0 / 60000 / 65536 = t1 / 60000 / 65536)%N.
(** The frequency after accesses at instants [ts], the previous access having been at [t0]. *)
Fixpoint freq_after (t0 f : N) (ts : list N) : N :=
  match ts with
  | [] => f
  | t :: ts' => freq_after t (freq_step f (t / 60000 - t0 / 60000)) ts'
  end.
Fixpoint ordered_in_era (t0 : N) (ts : list N) : Prop :=
  match ts with [] => True | t :: ts' => (t0 <= t)%N /\ same_era t0 t /\ ordered_in_era t ts' end.
