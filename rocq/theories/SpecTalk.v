(** Conversations with the whole server, in terms of what clients see: a store of keys with values and deadlines.
    A request takes the store to another one and restricts the reply; time only makes keys disappear. *)
From Verif Require Export SpecClients PropMeaning.

(** Keys with their values and deadlines (0: none). *)
Notation store := (bytes -> option (data * N)) (only parsing).
Definition nothing_stored : store := fun _ => None.
(** What is left of a store at time [t]. *)
Definition later (t : N) (m : store) : store :=
  fun k => match m k with Some (x, d) => while_alive t x d | None => None end.
Definition update (k : bytes) (y : option (data * N)) (m : store) : store := fun j => if decide (j = k) then y else m j.

(** How texts are read as integers by INCR and HINCRBY: a function of which everything is said here. *)
Definition reads_counters (num : scalar -> Z + err) : Prop :=
  (forall x z, counts_as x z -> num x = inl z) /\
  (forall x, is_text_value x -> (forall z, ~ counts_as x z) -> num x = inr ENotInt) /\
  (forall x, ~ is_text_value x -> (forall z, x <> SInteger z) -> num x = inr EWrongType).

(** SET: the deadline asked for (64 bits), and the reply to SET with GET for the value that was there. *)
Definition set_asks (t : N) (o : set_opts) (cur : option (data * N)) : N :=
  match so_expires o with
  | ExEx n => (t + n * 1000) mod 2 ^ 64
  | ExPx n => (t + n) mod 2 ^ 64
  | ExExat n => (n * 1000) mod 2 ^ 64
  | ExPxat n => n
  | ExKeepttl => match cur with Some (_, d) => d | None => 0 end
  | ExNone => 0
  end%N.
Definition given_back (en : env) (x : data) : frame :=
  match x with DScalar s => shown en s | _ => FError (bs "type not support") end.
(** TTL in milliseconds and seconds, 64 bits. *)
Definition remaining (t : N) (y : option (data * N)) (unit_of : Z -> Z) : frame :=
  match y with
  | None => FInteger (-2)
  | Some (_, d) => if (d =? 0)%N then FInteger (-1) else number (unit_of (Z.of_N d - Z.of_N t)%Z)
  end.

(** [means_key en num t0 t1 q k y y' P]: request [q], begun at [t0] and executed at [t1], is about key [k]; where [y] is
    visible under [k] before, [y'] is afterwards, and the reply satisfies [P]. *)
Inductive means_key (en : env) (num : scalar -> Z + err) (t0 t1 : N)
    : request -> bytes -> option (data * N) -> option (data * N) -> (frame -> Prop) -> Prop :=
  | mk_list q k f s d : list_meaning en q = Some (k, f) -> (s = None -> d = 0%N) ->
      means_key en num t0 t1 q k (stored DDeque d s) (stored DDeque d (fst (f s))) (eq (snd (f s)))
  | mk_hash q k f s d : hash_meaning en num q = Some (k, f) -> (s = None -> d = 0%N) ->
      means_key en num t0 t1 q k (stored DKvp d s) (stored DKvp d (fst (f s))) (snd (f s))
  | mk_set q k f s d : set_meaning_of q = Some (k, f) -> (s = None -> d = 0%N) ->
      means_key en num t0 t1 q k (stored DSet d s) (stored DSet d (fst (f s))) (snd (f s))
  | mk_query q k sel sc m d : zquery q k sel sc -> (m = None -> d = 0%N) -> (forall x, m = Some x -> no_nans x) ->
      means_key en num t0 t1 q k (stored zset_data d m) (stored zset_data d m) (eq (listed en sc (sel (listing (default ∅ m)))))
  | mk_lex_query q k sel sc m d : lquery q k sel sc -> (m = None -> d = 0%N) -> (forall x, m = Some x -> no_nans x /\ equal_scores x) ->
      means_key en num t0 t1 q k (stored zset_data d m) (stored zset_data d m) (eq (listed en sc (sel (listing (default ∅ m)))))
  | mk_removal q k sel m d : zremoval q k sel -> (m = None -> d = 0%N) -> (forall x, m = Some x -> no_nans x) ->
      means_key en num t0 t1 q k (stored zset_data d m)
        (stored zset_data d (without_members (map n_key (sel (listing (default ∅ m)))) <$> m)) (eq (counted (length (sel (listing (default ∅ m))))))
  | mk_lex_removal q k sel m d : lremoval q k sel -> (m = None -> d = 0%N) -> (forall x, m = Some x -> no_nans x /\ equal_scores x) ->
      means_key en num t0 t1 q k (stored zset_data d m)
        (stored zset_data d (without_members (map n_key (sel (listing (default ∅ m)))) <$> m)) (eq (counted (length (sel (listing (default ∅ m))))))
  | mk_zrem k ms m d : (m = None -> d = 0%N) -> (forall x, m = Some x -> no_nans x) ->
      means_key en num t0 t1 (QZrem k ms) k (stored zset_data d m) (stored zset_data d (without_members ms <$> m))
        (eq (counted (size ((list_to_set ms : gset bytes) ∩ dom (default ∅ m)))))
  | mk_zrank k mb m d : (m = None -> d = 0%N) -> (forall x, m = Some x -> no_nans x) ->
      means_key en num t0 t1 (QZrank k mb) k (stored zset_data d m) (stored zset_data d m) (eq (position_reply (index_of mb (listing (default ∅ m)))))
  | mk_zrevrank k mb m d : (m = None -> d = 0%N) -> (forall x, m = Some x -> no_nans x) ->
      means_key en num t0 t1 (QZrevrank k mb) k (stored zset_data d m) (stored zset_data d m) (eq (position_reply (index_of mb (rev (listing (default ∅ m))))))
  | mk_zadd k o ns m d new : zo_incr o = false -> Forall (fun p => not_nan (fst p)) ns ->
      (m = None -> d = 0%N) -> (forall x, m = Some x -> no_nans x) ->
      new = fst (fold_left (code_zadd_one (zo_nx o) (zo_gl o)) (map (fun p => Node (fst p) (snd p)) ns) (default ∅ m, O)) ->
      means_key en num t0 t1 (QZadd k o ns) k (stored zset_data d m) (Some (zset_data new, d))
        (eq (counted (if zo_ch o then size new else size new - size (default ∅ m))))
  | mk_get k y : means_key en num t0 t1 (QGet k) k y y (eq (match y with Some (x, _) => got en x | None => FNull end))
  | mk_set_value k x o y : means_key en num t0 t1 (QSet k x o) k y
      (if set_stores (so_nx o) y then while_alive t1 (DScalar x) (set_asks t0 o y) else y)
      (fun r => if so_get o then
         match y with
         | Some (z, _) => r = given_back en z
         | None => so_nx o <> NxXx_None \/ so_expires o = ExKeepttl -> r = FNull
         end
       else r = all_ok)
  | mk_setex q k x d y : setex_asks t0 q = Some (k, x, d) -> means_key en num t0 t1 q k y (while_alive t1 (DScalar x) d) (eq all_ok)
  | mk_counter_new q k n : counter_asks q = Some (k, n) ->
      means_key en num t0 t1 q k None (Some (DScalar (SInteger n), 0%N)) (eq (FInteger n))
  | mk_counter q k n x z d : counter_asks q = Some (k, n) -> num x = inl z ->
      means_key en num t0 t1 q k (Some (DScalar x, d)) (Some (DScalar (SInteger (as_i64 (z + n))), d)) (eq (number (z + n)))
  | mk_counter_refused q k n x er d : counter_asks q = Some (k, n) -> num x = inr er ->
      means_key en num t0 t1 q k (Some (DScalar x, d)) (Some (DScalar x, d)) (eq (match er with ENotInt => not_integer | _ => wrong_type end))
  | mk_expire q k new o y acts : expire_wants t0 q = Some (k, new, o) ->
      acts = (match y with Some (_, d) => code_expire_table (eo_nx o) (eo_gl o) (forever_or d) new | None => false end) ->
      means_key en num t0 t1 q k y
        (match y with Some (x, d) => if acts then while_alive t1 x new else Some (x, d) | None => None end) (eq (yes_no acts))
  | mk_pttl k y : means_key en num t0 t1 (QPttl k) k y y (eq (remaining t1 y (fun ms => ms)))
  | mk_ttl k y : means_key en num t0 t1 (QTtl k) k y y (eq (remaining t1 y (fun ms => ((ms + 500) mod 2 ^ 64) / 1000)%Z))
  | mk_wrong_type q k kd x d : works_on q = Some (k, kd) -> bounds_read q -> kind_of x <> kd ->
      means_key en num t0 t1 q k (Some (x, d)) (Some (x, d)) (eq wrong_type)
  | mk_exists k y : means_key en num t0 t1 (QExists [k]) k y y (eq (yes_no (bool_decide (is_Some y))))
  (* DEL may count a key whose deadline has passed, OBJECT may see it *)
  | mk_del k y : means_key en num t0 t1 (QDel [k]) k y None
      (fun r => r = FInteger 1 \/ (y = None /\ r = FInteger 0))
  | mk_debug k ps y : means_key en num t0 t1 (QDebug (bs "object") (k :: ps)) k y y
      (eq (match y with Some _ => all_ok | None => no_such_key end))
  | mk_idletime sub k ps y : sub ∈ [bs "IDLETIME"; bs "idletime"] -> means_key en num t0 t1 (QObject sub (k :: ps)) k y y
      (fun r => (exists z, r = FInteger z) \/ (y = None /\ r = FError (bs "idletiem key not exists")))
  | mk_freq sub k ps y : sub ∈ [bs "FREQ"; bs "freq"] -> means_key en num t0 t1 (QObject sub (k :: ps)) k y y
      (fun r => (exists z, r = FInteger z) \/ (y = None /\ r = FError (bs "freq key not exists")))
  | mk_dump k y : (forall x d, y = Some (x, d) -> data_fits x) -> means_key en num t0 t1 (QDump k) k y y
      (fun f => match y with Some (x, _) => exists p, f = FBulk p /\ deserialize get_data p = OOk x | None => f = FNull end)
  | mk_restore k ttl v o x y : deserialize get_data v = OOk x -> re_replace o = true \/ y = None ->
      means_key en num t0 t1 (QRestore k ttl v o) k y (while_alive t1 x (restore_deadline t0 ttl o)) (eq all_ok)
  | mk_restore_busy k ttl v o x d : re_replace o = false ->
      means_key en num t0 t1 (QRestore k ttl v o) k (Some (x, d)) (Some (x, d)) (eq busy_key)
  | mk_restore_malformed k ttl v o er y : deserialize get_data v = OErr er -> re_replace o = true \/ y = None ->
      means_key en num t0 t1 (QRestore k ttl v o) k y y (eq (FError (err_text en v (SDict er)))).

(** ... on whole stores. *)
Inductive means (en : env) (num : scalar -> Z + err) (t0 t1 : N) : request -> store -> store -> (frame -> Prop) -> Prop :=
  | m_key q k m y P : means_key en num t0 t1 q k (m k) y P -> means en num t0 t1 q m (update k y m) P
  | m_none q m f : no_database en q = Some f -> means en num t0 t1 q m m (eq f)
  | m_debug sub ps m : sub <> bs "object" -> means en num t0 t1 (QDebug sub ps) m m (eq all_ok)
  | m_object sub ps m : sub ∉ [bs "IDLETIME"; bs "idletime"; bs "FREQ"; bs "freq"] -> means en num t0 t1 (QObject sub ps) m m (eq all_ok)
  | m_flush sync m : means en num t0 t1 (QFlushall sync) m nothing_stored (eq all_ok).

(** A conversation: requests with the clock readings during each, the replies, the store before and after. *)
Inductive talk (en : env) (num : scalar -> Z + err) : store -> list serial_entry -> list frame -> store -> Prop :=
  | talk_end m : talk en num m [] [] m
  | talk_next s l m m1 P r rs m2 :
      means en num (sv_clock s 0%nat) (sv_clock s 1%nat) (sv_req s) (later (sv_clock s 1%nat) m) m1 P -> P r ->
      talk en num m1 l rs m2 -> talk en num m (s :: l) (r :: rs) m2.
(** Whatever is replied, each request finds itself explained above. *)
Fixpoint covered (en : env) (num : scalar -> Z + err) (m : store) (l : list serial_entry) : Prop :=
  match l with
  | [] => True
  | s :: l' =>
      let now := later (sv_clock s 1%nat) m in
      (exists m1 P, means en num (sv_clock s 0%nat) (sv_clock s 1%nat) (sv_req s) now m1 P) /\
      forall m1 P, means en num (sv_clock s 0%nat) (sv_clock s 1%nat) (sv_req s) now m1 P -> covered en num m1 l'
  end.

(** From time [t] on the database shows [m]. *)
Definition shows (t : N) (b : db) (m : store) : Prop := forall t' k, (t <= t')%N -> db_view t' b k = later t' m k.
(** The clock does not step back from one request to the next. *)
Definition forward (t : N) (l : list serial_entry) : Prop := StronglySorted N.le (t :: map (fun s => sv_clock s 1%nat) l).

(** Requests that are explained in every store without NaN: all but SYNCSNAPSHOT, EXISTS and DEL of several keys (C69),
    OBJECT without a key, RESTORE and DUMP, ZADD INCR, and queries of sorted sets by name or with irregular bounds. *)
Definition everyday (q : request) : Prop :=
  match q with
  | QSyncsnapshot _ | QRestore _ _ _ _ | QDump _ => False
  | QExists ks | QDel ks => exists k, ks = [k]
  | QDebug _ ps | QObject _ ps => ps <> []
  | QZadd _ o ns => zo_incr o = false /\ Forall (fun p => not_nan (fst p)) ns
  | QZrange _ _ _ _ | QZrevrange _ _ _ _ | QZrangebyscore _ _ _ _ _ | QZrevrangebyscore _ _ _ _ _ => exists k sel sc, zquery q k sel sc
  | QZremrangebyscore _ _ _ => exists k sel, zremoval q k sel
  | QZrangebylex _ _ _ _ | QZrevrangebylex _ _ _ _ | QZremrangebylex _ _ _ => False
  | _ => True
  end.
(** Sorted sets without NaN, both indexes agreeing. *)
Definition neat (m : store) : Prop := forall k h v d, m k = Some (DZSet h v, d) -> exists z, DZSet h v = zset_data z /\ no_nans z.
