(** FLUSHALL among other requests: the slots are emptied one at a time. *)
From Verif Require Export SpecWhole.

(** What a connection does at one moment: it serves a request, or FLUSHALL empties slot [s]. *)
Inductive deed := Did (s : serial_entry) | Wiped (i : nat) (s : N).
Definition doer (d : deed) : nat := match d with Did s => sv_conn s | Wiped i _ => i end.

(** FLUSHALL as a series of deeds: all slots are emptied, in order, and then it is answered. Other requests are one deed. *)
Definition script (q : request) : list (request + N) :=
  match q with QFlushall _ => map inr all_slots ++ [inl q] | _ => [inl q] end.
(** What connection [i] did. *)
Definition acts (i : nat) (l : list deed) : list (request + N) :=
  flat_map (fun d => match d with
                     | Did s => if Nat.eqb (sv_conn s) i then [inl (sv_req s)] else []
                     | Wiped j s => if Nat.eqb j i then [inr s] else []
                     end) l.

(** The deeds one after the other: database and channels after, and the replies. *)
Definition serve_deed (en : env) (s : serial_entry) (e : effects) : effects * (frame + hend) :=
  match sv_req s with QFlushall _ => (e, inl frame_ok) | q => serve_request en (sv_clock s) alone q e end.
Fixpoint deeds (en : env) (l : list deed) (e : effects) : effects * list (nat * (frame + hend)) :=
  match l with
  | [] => (e, [])
  | Did s :: l' => let '(e1, r) := serve_deed en s e in let '(e2, rs) := deeds en l' e1 in (e2, (sv_conn s, r) :: rs)
  | Wiped _ s :: l' => deeds en l' (Effects (db_set s dict_empty (ef_db e)) (ef_exp e) (ef_fwd e))
  end.
(** The requests among the deeds. *)
Fixpoint dids (l : list deed) : list serial_entry :=
  match l with [] => [] | Did s :: l' => s :: dids l' | Wiped _ _ :: l' => dids l' end.

(** Requests with at most one command, and FLUSHALL. *)
Definition brief (q : request) : Prop := single q \/ exists sync, q = QFlushall sync.

(** As [explains], with deeds. *)
Definition accounts (en : env) (b : db) (ins : list (list request)) (l : list deed) (x : clients) : Prop :=
  let '(e, rs) := deeds en l (Effects b [] []) in
  ef_db e = cs_db x /\
  Forall (fun d => (doer d < length (cs_conns x))%nat) l /\
  forall i k, cs_conns x !! i = Some k ->
    (exists rest, flat_map script (nth i ins []) = acts i l ++ rest) /\
    (exists last, SpecClients.answered i rs = map inl (k_out k) ++ last /\ (length last <= 1)%nat) /\
    (k_pc k = KIdle -> SpecClients.answered i rs = map inl (k_out k) /\ flat_map script (nth i ins []) = acts i l ++ flat_map script (k_in k)).
(** The same deeds in the same order, whatever the clock readings. *)
Definition deed_name (d : deed) : nat * (request + N) := match d with Did s => (sv_conn s, inl (sv_req s)) | Wiped i s => (i, inr s) end.
Definition precedes (l l' : list deed) : Prop := exists r, map deed_name l' = map deed_name l ++ r.

(** ** The store *)
(** The store without the keys of slot [s]. *)
Definition without_slot (s : N) (m : store) : store := fun k => if decide (get_slot k = s) then None else m k.
(** Deeds one after the other on a store: FLUSHALL is answered OK and changes nothing itself, its slots go one by one. *)
Inductive play (en : env) (num : scalar -> Z + err) : store -> list deed -> list (frame + hend) -> store -> Prop :=
  | play_end m : play en num m [] [] m
  | play_did s l m m1 P r rs m2 : (forall sync, sv_req s <> QFlushall sync) ->
      fates en num (sv_clock s 0%nat) (sv_clock s 1%nat) (sv_req s) (later (sv_clock s 1%nat) m) m1 P -> P r ->
      play en num m1 l rs m2 -> play en num m (Did s :: l) (r :: rs) m2
  | play_flushed s sync l m rs m2 : sv_req s = QFlushall sync -> play en num m l rs m2 ->
      play en num m (Did s :: l) (inl frame_ok :: rs) m2
  | play_wiped i s l m rs m2 : play en num (without_slot s m) l rs m2 -> play en num m (Wiped i s :: l) rs m2.

(** Requests that can store something under a key that is absent. *)
Definition creates (q : request) : option bytes :=
  match q with
  | QSet k _ _ | QSetex k _ _ | QPsetex k _ _ | QIncr k | QIncrby k _ | QDecr k | QDecrby k _ | QHset k _ | QHsetnx k _ _ | QHincrby k _ _
  | QLpush k _ | QRpush k _ | QSadd k _ | QZadd k _ _ | QRestore k _ _ _ => Some k
  | _ => None
  end.
