(** What servers that follow other servers can be sent, and in which order they ask for it. *)
From Verif Require Export SpecTasks.

(** A follower asks for a snapshot of everything before it asks for commands, whenever it hears of a leader. *)
Fixpoint snapshot_first (evs : list tevent) : Prop :=
  match evs with
  | [] | USyncAll :: _ => True
  | USyncCmd :: _ => False
  | _ :: evs' => snapshot_first evs'
  end.

(** A leader that has not made 65536 writes to slot 0 and holds fewer keys than that there. *)
Definition young (b : db) : Prop := (write_id (b 0%N) < 2 ^ 16)%N /\ (N.of_nat (size (inner (b 0%N))) < 2 ^ 16)%N.

(** [s] is what arrives, before the connection ends, of the answer of such a leader to a request for [slot]. *)
Definition answers (P : db -> Prop) (slot : N) (s : bytes) : Prop :=
  exists ho b l rest, horder_ok ho /\ young b /\ P b /\ snapshot_slots slot b = Some l /\
    put_snapshot ho l = s ++ rest /\ (N.of_nat (length (s ++ rest)) < 2 ^ 48)%N.

(** In an execution every transfer that connects is answered by some leader, one at a time: with whatever it holds. *)
Fixpoint answered_by (P : db -> Prop) (evs : list tevent) (x : tasks) : Prop :=
  match evs with
  | [] => True
  | ev :: evs' =>
      match ev with
      | UOpen k s => forall slot, nth_error (tk_xfers x) k = Some (XConnect slot) -> answers P slot s
      | _ => True
      end /\ match tstep ev x with Some x' => answered_by P evs' x' | None => True end
  end.
