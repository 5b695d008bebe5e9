(** The snapshot stream: component/server/src/cmd/syncsnapshot.rs on the leader, and the reading loop of
    component/db/src/pd_handle/replica.rs on the follower. *)
From Verif Require Export Expire.

(** cmd/syncsnapshot.rs:21-35: the slots to send.  [None]: the index is out of bounds, a panic.
    The locks are all held while the process forks, so the dictionaries are those of one moment. *)
Definition snapshot_slots (slot : N) (b : db) : option (list (N * dict)) :=
  if (slot =? slot_size)%N then Some (map (fun i => (i, b i)) all_slots)
  else if (slot <? slot_size)%N then Some [(slot, b slot)]
  else None.

(** cmd/syncsnapshot.rs:51-62, in the child process: [Some(id)] with [id : usize] and the dictionary for
    each slot, then [None : Option<u16>]. *)
Definition put_snapshot (ho : horder) (l : list (N * dict)) : bytes :=
  concat (map (fun p => put_option put_u64 (Some (fst p)) ++ put_dict ho (snd p)) l) ++ put_option put_u16 None.

(** replica.rs:71-76, one turn of the loop: [Option<u16>], then a dictionary.  [IFail]: an error or a panic
    (a [Deserialize] impl, or an index out of bounds in [replace_dict]). *)
Inductive item := IInstall (slot : N) (d : dict) (rest : bytes) | IEnd | IFail.
(** replica.rs:71-75: the next dictionary of the stream. *)
Definition read_item (s : bytes) : item :=
  match get_option get_u16 s with
  | DOk None _ => IEnd
  | DOk (Some i) s1 =>
      match get_dict s1 with
      | DOk d s2 => if (i <? slot_size)%N then IInstall i d s2 else IFail
      | _ => IFail
      end
  | _ => IFail
  end.

(** replica.rs:71-80, the whole loop: the dictionaries installed, in order, and whether it ended with [None].
    Every turn reads at least one byte, so the length of the stream is enough [fuel]. *)
Fixpoint read_items (fuel : nat) (s : bytes) : list (N * dict) * bool :=
  match fuel with
  | O => ([], false)
  | S fuel' =>
      match read_item s with
      | IInstall i d r => let '(l, e) := read_items fuel' r in ((i, d) :: l, e)
      | IEnd => ([], true)
      | IFail => ([], false)
      end
  end.
(** replica.rs:62-81 without the locks: installs until the stream ends. *)
Definition read_snapshot (s : bytes) : list (N * dict) * bool := read_items (length s) s.
