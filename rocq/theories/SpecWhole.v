(** The whole server as a machine on a store of keys, for every request and every state: what becomes of the store, and what
    becomes of the request (a reply, or the end of its connection).  Extends SpecTalk.v by sorted sets whose two indexes
    disagree (SpecTwo.v), unreadable texts, and handlers that die. *)
From Verif Require Export SpecTwo SpecParts.

(** ** Texts of bounds *)
(** A text is read, or refused with an error, or kills the handler. *)
Inductive reading (A : Type) := Reads (a : A) | Refused (P : frame -> Prop) | Kills.
Arguments Reads {A} a. Arguments Refused {A} P. Arguments Kills {A}.
Definition read_map {A B} (f : A -> B) (r : reading A) : reading B :=
  match r with Reads a => Reads (f a) | Refused P => Refused P | Kills => Kills end.
(** Two texts: the first that cannot be read decides. *)
Definition both {A} (r s : reading A) : reading (A * A) :=
  match r with
  | Reads a => read_map (pair a) s
  | Refused P => Refused P
  | Kills => Kills
  end.

(** Byte number [i] is inside a character. *)
Definition inside_char (i : nat) (t : bytes) : bool :=
  match t !! i with Some b => (128 <=? Byte.to_N b)%N && (Byte.to_N b <? 192)%N | None => false end.
(** Positions. *)
Inductive place_read : bytes -> reading Z -> Prop :=
  | pr_number t z : int_text z t -> place_read t (Reads z)
  | pr_empty : place_read [] (Refused (eq (FError (bs "cannot parse integer from empty string"))))
  | pr_other t : t <> [] -> (forall z, ~ int_text z t) ->
      place_read t (Refused (fun f => exists x, f = FError x /\
        In x [bs "invalid digit found in string"; bs "number too large to fit in target type"; bs "number too small to fit in target type"])).
(** Scores ([parse_f64] is the subject of C102). *)
Definition score_value (b : f64 -> bound f64) (t : bytes) : reading (bound f64) :=
  match parse_f64 t with
  | Some x => Reads (b x)
  | None => Refused (eq (FError (match t with [] => bs "cannot parse float from empty string" | _ => bs "invalid float literal" end)))
  end.
Definition score_read_as (t : bytes) : reading (bound f64) :=
  if inside_char 3 t then Kills
  else match t with x28 :: t' => score_value Excluded t' | _ => score_value Included t end.
(** Names: whatever follows a sign is ignored, and any other first character than "(" means inclusive. *)
Definition name_read_as (t : bytes) : reading (bound bytes) :=
  match t with
  | [] => Refused (eq (FError (bs "bound invaild")))
  | b :: t' =>
      if inside_char 1 t then Kills
      else match b with
           | x2d | x2b => Reads Unbounded
           | x28 => Reads (Excluded t')
           | _ => Reads (Included t')
           end
  end.
Definition swap {A} (r : A * A) : A * A := (snd r, fst r).
Definition turned {A} (rv : bool) (r : A * A) : A * A := if rv then swap r else r.

(** ** Requests about sorted sets: key, operation and how its result is shown *)
Inductive two_asks (en : env) : request -> bytes -> reading two_op -> (resp -> frame) -> Prop :=
  | ta_add k o ns : two_asks en (QZadd k o ns) k
      (Reads (TAdd (map (fun n => Node (fst n) (snd n)) ns) (zo_nx o) (zo_gl o) (zo_incr o))) (grown_reply (zo_ch o))
  | ta_rem k ms : two_asks en (QZrem k ms) k (Reads (TRem ms)) shrunk_reply
  | ta_rank k m : two_asks en (QZrank k m) k (Reads (TRank m false)) place_reply
  | ta_revrank k m : two_asks en (QZrevrank k m) k (Reads (TRank m true)) place_reply
  | ta_range k t u a b o : ro_order o = ByRank -> place_read t a -> place_read u b ->
      two_asks en (QZrange k t u o) k (read_map (fun p => TRange (fst p) (snd p) (ro_limit o) (ro_rev o)) (both a b)) (nodes_reply en (ro_scores o))
  | ta_revrange k t u a b sc : place_read t a -> place_read u b ->
      two_asks en (QZrevrange k t u sc) k (read_map (fun p => TRange (fst p) (snd p) None true) (both a b)) (nodes_reply en sc)
  | ta_byscore k t u lim sc : two_asks en (QZrangebyscore k t u sc lim) k
      (read_map (fun r => TRangeByScore r lim false) (both (score_read_as t) (score_read_as u))) (nodes_reply en sc)
  | ta_revbyscore k t u lim sc : two_asks en (QZrevrangebyscore k t u sc lim) k
      (read_map (fun r => TRangeByScore (swap r) lim true) (both (score_read_as t) (score_read_as u))) (nodes_reply en sc)
  | ta_range_byscore k t u o : ro_order o = ByScore -> two_asks en (QZrange k t u o) k
      (read_map (fun r => TRangeByScore (turned (ro_rev o) r) (ro_limit o) (ro_rev o)) (both (score_read_as t) (score_read_as u))) (nodes_reply en (ro_scores o))
  | ta_bylex k t u lim : two_asks en (QZrangebylex k t u lim) k
      (read_map (fun r => TRangeByLex r lim false) (both (name_read_as t) (name_read_as u))) (nodes_reply en false)
  | ta_revbylex k t u lim : two_asks en (QZrevrangebylex k t u lim) k
      (read_map (fun r => TRangeByLex (swap r) lim true) (both (name_read_as t) (name_read_as u))) (nodes_reply en false)
  | ta_range_bylex k t u o : ro_order o = ByLex -> two_asks en (QZrange k t u o) k
      (read_map (fun r => TRangeByLex (turned (ro_rev o) r) (ro_limit o) (ro_rev o)) (both (name_read_as t) (name_read_as u))) (nodes_reply en (ro_scores o))
  | ta_remrank k a b : two_asks en (QZremrangebyrank k a b) k (Reads (TRemRank a b)) removed_reply
  | ta_remscore k t u : two_asks en (QZremrangebyscore k t u) k
      (read_map TRemScore (both (score_read_as t) (score_read_as u))) removed_reply
  | ta_remlex k t u : two_asks en (QZremrangebylex k t u) k
      (read_map TRemLex (both (name_read_as t) (name_read_as u))) removed_reply.

(** ** What becomes of a request: a reply or the end of the connection *)
Notation fate := (frame + hend)%type (only parsing).
Definition replied (P : frame -> Prop) (r : fate) : Prop := match r with inl f => P f | inr _ => False end.

(** As [means_key], with fates. *)
Inductive fate_key (en : env) (num : scalar -> Z + err) (t0 t1 : N)
    : request -> bytes -> option (data * N) -> option (data * N) -> (fate -> Prop) -> Prop :=
  | fk_means q k y y' P : means_key en num t0 t1 q k y y' P -> fate_key en num t0 t1 q k y y' (replied P)
  | fk_two q k o rep s d : two_asks en q k (Reads o) rep -> (s = None -> d = 0%N) -> two_ok s ->
      fate_key en num t0 t1 q k (stored two_data d s) (stored two_data d (fst (two_step o s)))
        (eq (match snd (two_step o s) with OOk x => inl (rep x) | _ => inr HPanic end))
  | fk_two_wrong_type q k o rep x d : two_asks en q k (Reads o) rep -> kind_of x <> KZset ->
      fate_key en num t0 t1 q k (Some (x, d)) (Some (x, d)) (replied (eq wrong_type))
  | fk_two_refused q k P rep y : two_asks en q k (Refused P) rep -> fate_key en num t0 t1 q k y y (replied P)
  | fk_two_kills q k rep y : two_asks en q k Kills rep -> fate_key en num t0 t1 q k y y (eq (inr HPanic))
  | fk_dump k y : fate_key en num t0 t1 (QDump k) k y y
      (replied (fun f => match y with Some (x, _) => exists p, f = FBulk p /\ (data_fits x -> deserialize get_data p = OOk x) | None => f = FNull end))
  | fk_restore_dies k ttl v o y : deserialize get_data v = OPanic -> re_replace o = true \/ y = None ->
      fate_key en num t0 t1 (QRestore k ttl v o) k y y (eq (inr HPanic)).

Inductive fates (en : env) (num : scalar -> Z + err) (t0 t1 : N) : request -> store -> store -> (fate -> Prop) -> Prop :=
  | f_key q k m y P : fate_key en num t0 t1 q k (m k) y P -> fates en num t0 t1 q m (update k y m) P
  | f_means q m m' P : means en num t0 t1 q m m' P -> fates en num t0 t1 q m m' (replied P)
  | f_snapshot s m : fates en num t0 t1 (QSyncsnapshot s) m m (eq (inr (HSnapshot s)))
  | f_debug_nothing m : fates en num t0 t1 (QDebug (bs "object") []) m m (eq (inr HPanic))
  | f_idletime_nothing sub m : sub ∈ [bs "IDLETIME"; bs "idletime"] ->
      fates en num t0 t1 (QObject sub []) m m (eq (inl (FError (bs "idletiem key not exists"))))
  | f_freq_nothing sub m : sub ∈ [bs "FREQ"; bs "freq"] ->
      fates en num t0 t1 (QObject sub []) m m (eq (inl (FError (bs "freq key not exists"))))
  | f_del_nothing m : fates en num t0 t1 (QDel []) m m (eq (inl (FInteger 0)))
  | f_exists_nothing m : fates en num t0 t1 (QExists []) m m (eq (inl (FInteger 0))).

(** Requests one after the other: their fates, the store before and after. *)
Inductive deal (en : env) (num : scalar -> Z + err) : store -> list serial_entry -> list fate -> store -> Prop :=
  | deal_end m : deal en num m [] [] m
  | deal_next s l m m1 P r rs m2 :
      fates en num (sv_clock s 0%nat) (sv_clock s 1%nat) (sv_req s) (later (sv_clock s 1%nat) m) m1 P -> P r ->
      deal en num m1 l rs m2 -> deal en num m (s :: l) (r :: rs) m2.

(** Sorted sets whose listed nodes are in strict order. *)
Definition orderly_value (x : data) : Prop :=
  match x with DZSet _ l => StronglySorted node_before l | _ => True end.
Definition orderly (m : store) : Prop := forall k x d, m k = Some (x, d) -> orderly_value x.
(** All requests: DEL and EXISTS of several keys are taken apart. *)
Definition fair (q : request) : Prop := parts q = [q].

(** ** Connections and clients *)
(** The clock of a connection, from [t] on; [clock i j] is its reading number [j] during request [i]. *)
Definition ticks (t : N) (clock : nat -> nat -> N) : Prop :=
  (forall j, t <= clock O j)%N /\ (forall i j j', (j <= j')%nat -> (clock i j <= clock i j')%N) /\ (forall i j j', (clock i j <= clock (S i) j')%N).
(** How a connection goes on after the requests [qs] with the fates [ps] (of their parts): [rest] are the frames that
    are not served any more, [rs] the replies, and the handler ends by itself with [Some h]. *)
Inductive ends (qs : list request) (rest : list frame) (ps : list fate) (rs : list frame) : option hend -> Prop :=
  | ends_all fs : rest = [] -> ps = map inl fs -> merged qs fs rs -> ends qs rest ps rs None
  | ends_no_request f rest' fs : rest = f :: rest' -> from_frame f = None -> ps = map inl fs -> merged qs fs rs -> ends qs rest ps rs (Some HError)
  | ends_dead qs' q fs h : qs = qs' ++ [q] -> ps = map inl fs ++ [inr h] -> merged qs' fs rs -> ends qs rest ps rs (Some h).
(** What becomes of the requests of connection [i]. *)
Definition fated (i : nat) (l : list serial_entry) (ps : list fate) : list fate :=
  map snd (List.filter (fun p => Nat.eqb (fst p) i) (combine (map sv_conn l) ps)).
