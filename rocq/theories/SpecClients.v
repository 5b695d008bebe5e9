(** Requests executed one at a time, against which Clients.v is compared. *)
From Verif Require Export Clients.

(** A request with the connection it came from and the clock readings during its execution. *)
Record serial_entry := Served { sv_conn : nat; sv_req : request; sv_clock : nat -> N }.

(** Requests served one after the other, each alone. *)
Fixpoint serial (en : env) (l : list serial_entry) (e : effects) : effects * list (nat * (frame + hend)) :=
  match l with
  | [] => (e, [])
  | s :: l' =>
      let '(e1, r) := serve_request en (sv_clock s) alone (sv_req s) e in
      let '(e2, rs) := serial en l' e1 in (e2, (sv_conn s, r) :: rs)
  end.

(** What connection [i] sent, and what it was answered. *)
Definition asked (i : nat) (l : list serial_entry) : list request :=
  map sv_req (List.filter (fun s => Nat.eqb (sv_conn s) i) l).
Definition answered (i : nat) (rs : list (nat * (frame + hend))) : list (frame + hend) :=
  map snd (List.filter (fun r => Nat.eqb (fst r) i) rs).

(** Requests that touch the database at most once. *)
Definition single (q : request) : Prop :=
  forall t, match plan_of t q with AOk (PCmds cs) => (length cs <= 1)%nat | AOk PFlush => False | _ => True end.

(** [l] explains the state [x] reached from database [b] with requests [ins]: executing [l] one at a time leads
    to the same database; every connection was answered as in [l], except possibly for the reply to its last
    request, which it may not have been given yet; what it asked are its first requests; and nobody else
    asked anything. *)
Definition explains (en : env) (b : db) (ins : list (list request)) (l : list serial_entry) (x : clients) : Prop :=
  let '(e, rs) := serial en l (Effects b [] []) in
  ef_db e = cs_db x /\
  Forall (fun s => (sv_conn s < length (cs_conns x))%nat) l /\
  forall i k, cs_conns x !! i = Some k ->
    (exists rest, nth i ins [] = asked i l ++ rest) /\
    (exists last, answered i rs = map inl (k_out k) ++ last /\ (length last <= 1)%nat) /\
    (k_pc k = KIdle -> answered i rs = map inl (k_out k) /\ nth i ins [] = asked i l ++ k_in k).

(** The same requests in the same order, whatever the clock readings. *)
Definition begins (l l' : list serial_entry) : Prop :=
  exists r, map (fun s => (sv_conn s, sv_req s)) l' = map (fun s => (sv_conn s, sv_req s)) l ++ r.

(** Executing the commands [h] one at a time. The messages that are not in the channel yet are those that a
    connection is about to send. *)
Definition unsent (k : client) : list fwd_msg := match k_pc k with KSend _ _ _ _ fs _ => fs | _ => [] end.
(** The commands of connection [k] have not panicked. *)
Definition unhurt (k : client) : Prop :=
  match k_pc k with KEnd HPanic | KSend _ _ _ _ _ OPanic => False | _ => True end.
