(** What can be observed of an execution of Tasks.v, defined on the execution alone. *)
From Verif Require Export Tasks.

(** The message that a step finishes: [process_forward] was called with it and did not ask for a snapshot, or its slot does
    not exist (either may kill the task). *)
Definition finishes (ev : tevent) (x : tasks) : list fwd_msg :=
  match ev with
  | UStep i now =>
      match tk_cmds x !! i with
      | Some (TTry m) =>
          match snd (fst (process_forward (fm_slot m) now (fm_id m) (fm_cmd m) (tk_db x (fm_slot m)))) with
          | Some Gt => []
          | _ => [m]
          end
      | Some (TWait m) => if (fm_slot m <? slot_size)%N then [] else [m]
      | _ => []
      end
  | _ => []
  end.

(** The messages that an execution finishes, in order. *)
Fixpoint handled (evs : list tevent) (x : tasks) : list fwd_msg :=
  match evs with
  | [] => []
  | ev :: evs' => finishes ev x ++ match tstep ev x with Some x' => handled evs' x' | None => [] end
  end.

(** The messages that leaders send in an execution, over all channels, in order. *)
Fixpoint sent (evs : list tevent) : list fwd_msg :=
  match evs with
  | [] => []
  | UMsg _ m :: evs' => m :: sent evs'
  | _ :: evs' => sent evs'
  end.

(** The messages taken out of channel [c] in an execution. *)
Fixpoint taken (c : nat) (evs : list tevent) (x : tasks) : list fwd_msg :=
  match evs with
  | [] => []
  | ev :: evs' =>
      match ev with
      | UStep i _ =>
          match tk_cmds x !! i with
          | Some (TRecv c') =>
              if Nat.eqb c' c then match tk_chans x !! c with Some (Chan (m :: _) _) => [m] | _ => [] end else []
          | _ => []
          end
      | _ => []
      end ++ match tstep ev x with Some x' => taken c evs' x' | None => [] end
  end.

(** The message that a task is busy with. *)
Definition holds (c : tpc) : list fwd_msg :=
  match c with
  | TWait m | TPoll m | TPark m | TTry m | TSync m | TSleep m => [m]
  | _ => []
  end.

(** How many changes of leader an execution contains. *)
Definition is_sync_cmd (ev : tevent) : bool := match ev with USyncCmd => true | _ => false end.
Definition leaders (evs : list tevent) : nat := length (List.filter is_sync_cmd evs).

(** The answer of a leader from which a transfer does not fail. *)
Inductive complete : bytes -> Prop :=
  | complete_end s : read_item s = IEnd -> complete s
  | complete_slot s j d r : read_item s = IInstall j d r -> complete r -> complete s.

(** No transfer fails. *)
Definition no_failure (evs : list tevent) : Prop :=
  Forall (fun ev => match ev with UOpen _ s => complete s | UFail _ => False | _ => True end) evs.
