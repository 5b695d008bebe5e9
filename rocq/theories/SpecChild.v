(** What the claims about the sending process are stated with. *)
From Verif Require Export Child SpecFrame.

(** Somewhere between its fork and its end as far as the kernel knows: running, or ended and not waited for. *)
Definition exists_pid (k : kids) (p : N) : Prop := In p (k_live k) \/ In p (map fst (k_zombies k)).
(** No process is killed, and none is waited for before it is entered into the table. *)
Fixpoint orderly (evs : list kevent) (k : kids) : Prop :=
  match evs with
  | [] => True
  | ev :: evs' =>
      match ev with
      | KEnd _ e => e = true
      | KTurn p => ~ In p (k_new k)
      | _ => True
      end /\
      forall k', kstep ev k = Some k' -> orderly evs' k'
  end.
(** How many processes have ended, and how often the loop has looked. *)
Definition ends (evs : list kevent) : nat := length (List.filter (fun ev => match ev with KEnd _ _ => true | _ => false end) evs).
Definition turns (evs : list kevent) : nat := length (List.filter (fun ev => match ev with KTurn _ | KIdle => true | _ => false end) evs).
