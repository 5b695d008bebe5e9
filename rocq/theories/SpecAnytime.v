(** The server as a machine on a store of keys when the clock may step back: what has expired may become visible again, so the store
    keeps it. *)
From Verif Require Export SpecFlush SpecLeader.

(** What a request leaves under a key if it stores or deletes there whatever the clock says, where [m] is visible: SET and its siblings,
    RESTORE and EXPIRE may store something whose deadline has already passed, and DEL deletes also what has expired. *)
Definition puts (t0 : N) (q : request) (m : store) : option (bytes * option (data * N)) :=
  match q with
  | QDel [k] => Some (k, None)
  | QSet k x o => if set_stores (so_nx o) (m k) then Some (k, Some (DScalar x, set_asks t0 o (m k))) else None
  | QRestore k ttl v o =>
      match deserialize get_data v, m k with
      | OOk x, None => Some (k, Some (x, restore_deadline t0 ttl o))
      | OOk x, Some _ => if re_replace o then Some (k, Some (x, restore_deadline t0 ttl o)) else None
      | _, _ => None
      end
  | _ =>
      match setex_asks t0 q, expire_wants t0 q with
      | Some (k, x, d), _ => Some (k, Some (DScalar x, d))
      | None, Some (k, d, _) => match m k with Some (x, _) => Some (k, Some (x, d)) | None => None end
      | None, None => None
      end
  end.
(** The store after a request at [t1] on [m], where [m1] is visible after it: what is visible, and what has expired and was not touched. *)
Definition lasting (t0 t1 : N) (q : request) (m m1 : store) : store :=
  fun j => match later t1 m1 j with
           | Some v => Some v
           | None => match puts t0 q (later t1 m) with Some (k, v) => if decide (j = k) then v else m j | None => m j end
           end.

(** DEL counts a key that is stored, expired or not. *)
Definition del_counts (q : request) (m : store) (r : frame + hend) : Prop :=
  forall k, q = QDel [k] -> r = inl (FInteger (match m k with Some _ => 1 | None => 0 end)).
(** [play] for any clock. *)
Inductive replay (en : env) (num : scalar -> Z + err) : store -> list deed -> list (frame + hend) -> store -> Prop :=
  | replay_end m : replay en num m [] [] m
  | replay_did s l m m1 P r rs m2 : (forall sync, sv_req s <> QFlushall sync) ->
      fates en num (sv_clock s 0%nat) (sv_clock s 1%nat) (sv_req s) (later (sv_clock s 1%nat) m) m1 P -> P r -> del_counts (sv_req s) m r ->
      replay en num (lasting (sv_clock s 0%nat) (sv_clock s 1%nat) (sv_req s) m m1) l rs m2 -> replay en num m (Did s :: l) (r :: rs) m2
  | replay_flushed s sync l m rs m2 : sv_req s = QFlushall sync -> replay en num m l rs m2 ->
      replay en num m (Did s :: l) (inl frame_ok :: rs) m2
  | replay_wiped i s l m rs m2 : replay en num (without_slot s m) l rs m2 -> replay en num m (Wiped i s :: l) rs m2.

(** The database holds exactly [m], expired or not. *)
Definition holds (b : db) (m : store) : Prop := forall k, db_contents b k = m k.

(** What background tasks do to the data, as a client would: look at a key, remove a key. *)
Definition asks_in_background (q : request) : Prop := (exists k, q = QGet k) \/ exists k, q = QDel [k].
Definition background_deed (n : nat) (d : deed) : Prop :=
  match d with Did s => sv_conn s = n /\ asks_in_background (sv_req s) | Wiped _ _ => False end.
