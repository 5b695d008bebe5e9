(** What each request means: the value under its key afterwards and the reply, in terms of the mathematical objects
    (lists, maps, sets) that clients see.  Nothing here refers to the commands the server issues or to the
    responses of the database. *)
From Verif Require Export SpecServer SpecText.

(** ** Replies *)
(** A number; the reply has 64 bits. *)
Definition number (z : Z) : frame := FInteger (as_i64 z).
Definition counted (n : nat) : frame := number (Z.of_nat n).
Definition yes_no (b : bool) : frame := FInteger (if b then 1 else 0).
(** A stored element; [e_fmt] prints floating point numbers.  A collection within a collection is not shown. *)
Definition shown (en : env) (x : scalar) : frame :=
  match x with
  | SString b => FSimple b
  | SBytes b => FBulk b
  | SInteger z => FInteger z
  | SFloat y => FSimple (e_fmt en y)
  | SNull => FNull
  | SKvp _ | SDeque _ | SSet _ | SZSet _ _ => FError (bs "type not support")
  end.
Definition wrong_type : frame := FError (bs "WRONGTYPE Operation against a key holding the wrong kind of value").
Definition not_integer : frame := FError (bs "value is not an integer or out of range").
Definition all_ok : frame := FSimple (bs "OK").

(** Request [q], executed at [clock 1] in the state [oth 0 e], is answered as [reply] wants, leaves the value [after]
    visible under [k], and touches nothing stored under other keys. *)
Definition does (en : env) (clock : nat -> N) (oth : others) (q : request) (e : effects) (k : bytes)
    (after : option (data * N)) (reply : frame -> Prop) : Prop :=
  exists e' r, serve_request en clock oth q e = (e', inl r) /\ reply r /\
    db_view (clock 1%nat) (ef_db e') k = after /\
    forall j, j <> k -> db_raw (ef_db e') j = db_raw (ef_db (oth 0%nat e)) j.
(** What is visible under [k] when the request executes. *)
Definition before (clock : nat -> N) (oth : others) (e : effects) (k : bytes) : option (data * N) :=
  db_view (clock 1%nat) (ef_db (oth 0%nat e)) k.

(** ** Lists: from the list under the key ([None]: no such key) to the list afterwards and the reply *)
Definition list_meaning (en : env) (q : request) : option (bytes * (option (list scalar) -> option (list scalar) * frame)) :=
  match q with
  | QLpush k xs => Some (k, fun s => (Some (rev xs ++ default [] s), counted (length (default [] s) + length xs)))
  | QRpush k xs => Some (k, fun s => (Some (default [] s ++ xs), counted (length (default [] s) + length xs)))
  | QLpushx k xs => Some (k, fun s => match s with
      | Some l => (Some (rev xs ++ l), counted (length l + length xs))
      | None => (None, counted 0)
      end)
  | QRpushx k xs => Some (k, fun s => match s with
      | Some l => (Some (l ++ xs), counted (length l + length xs))
      | None => (None, counted 0)
      end)
  | QLpop k n => Some (k, fun s => match s with
      | Some l => (Some (skipn (N.to_nat n) l), FArray (map (shown en) (firstn (N.to_nat n) l)))
      | None => (None, FArray [])
      end)
  | QRpop k n => Some (k, fun s => match s with
      | Some l => (Some (firstn (length l - N.to_nat n) l), FArray (map (shown en) (rev (skipn (length l - N.to_nat n) l))))
      | None => (None, FArray [])
      end)
  | QLlen k => Some (k, fun s => (s, counted (length (default [] s))))
  | QLrange k a b => Some (k, fun s => (s, FArray (map (shown en) (slice a b (default [] s)))))
  | _ => None
  end.

(** ** Hashes; [num] reads stored scalars as integers *)
Definition hash_meaning (en : env) (num : scalar -> Z + err) (q : request)
    : option (bytes * (option (gmap bytes scalar) -> option (gmap bytes scalar) * (frame -> Prop))) :=
  let entries s := default (∅ : gmap bytes scalar) s in
  match q with
  | QHset k es => Some (k, fun s => (Some (bindings es ∪ entries s), eq (counted (size (named es ∖ dom (entries s))))))
  | QHsetnx k f x => Some (k, fun s => match entries s !! f with
      | Some _ => (s, eq (counted 0))
      | None => (Some (<[f := x]> (entries s)), eq (counted 1))
      end)
  | QHdel k fs => Some (k, fun s =>
      (filter (fun p => p.1 ∉ fs) <$> s, eq (counted (size ((list_to_set fs : gset bytes) ∩ dom (entries s))))))
  | QHincrby k f n => Some (k, fun s => match entries s !! f with
      | None => (Some (<[f := SInteger n]> (entries s)), eq (FInteger n))
      | Some x => match num x with
          | inl z => (Some (<[f := SInteger (as_i64 (z + n))]> (entries s)), eq (number (z + n)))
          | inr ENotInt => (s, eq not_integer)
          | inr _ => (s, eq wrong_type)
          end
      end)
  | QHget k f => Some (k, fun s => (s, eq (shown en (default SNull (entries s !! f)))))
  | QHmget k fs => Some (k, fun s => (s, eq (FArray (map (fun f => shown en (default SNull (entries s !! f))) fs))))
  | QHgetall k => Some (k, fun s => (s, fun r => exists l, l ≡ₚ map_to_list (entries s) /\
      r = FArray (concat (map (fun p => [FBulk p.1; shown en p.2]) l))))
  | QHexists k f => Some (k, fun s => (s, eq (yes_no (bool_decide (is_Some (entries s !! f))))))
  | _ => None
  end.

(** ** Sets *)
Definition set_meaning_of (q : request) : option (bytes * (option (gset bytes) -> option (gset bytes) * (frame -> Prop))) :=
  let members s := default (∅ : gset bytes) s in
  match q with
  | QSadd k ms => Some (k, fun s => (Some (members s ∪ list_to_set ms), eq (counted (size (list_to_set ms ∖ members s)))))
  | QSrem k ms => Some (k, fun s => ((.∖ list_to_set ms) <$> s, eq (counted (size (list_to_set ms ∩ members s)))))
  | QSismember k m => Some (k, fun s => (s, eq (yes_no (bool_decide (m ∈ members s)))))
  | QSmismember k ms => Some (k, fun s => (s, eq (FArray (map (fun m => yes_no (bool_decide (m ∈ members s))) ms))))
  | QSmembers k => Some (k, fun s => (s, fun r => exists l, l ≡ₚ elements (members s) /\ r = FArray (map FSimple l)))
  | _ => None
  end.

(** ** Sorted sets *)
(** The reply that lists nodes, with their scores if asked. *)
Definition listed (en : env) (scores : bool) (l : list node) : frame :=
  FArray (concat (map (fun n => FSimple (n_key n) :: if scores then [FSimple (e_fmt en (n_score n))] else []) l)).
Definition is_ascii (t : bytes) : Prop := Forall (fun b => (Byte.to_N b < 128)%N) t.
(** Texts of bounds: a score, or a score that is itself excluded (for indexes: [int_text]). *)
Definition score_text (b : bound f64) (t : bytes) : Prop :=
  is_ascii t /\
  match b with
  | Included x => parse_f64 t = Some x /\ (forall t', t <> bs "(" ++ t')
  | Excluded x => exists t', t = bs "(" ++ t' /\ parse_f64 t' = Some x
  | Unbounded => False
  end.
(** Texts of lexicographic bounds; [low] tells the lower bound from the upper one. *)
Definition lex_text (low : bool) (b : bound bytes) (t : bytes) : Prop :=
  utf8_valid t = true /\
  match b with
  | Unbounded => t = if low then bs "-" else bs "+"
  | Included m => t = bs "[" ++ m
  | Excluded m => t = bs "(" ++ m
  end.

(** Queries: the nodes they select from the listing (lowest score first), and whether scores are shown. *)
Inductive zquery : request -> bytes -> (list node -> list node) -> bool -> Prop :=
  | zq_range k lo hi a b o : ro_order o = ByRank -> int_text a lo -> int_text b hi -> limit_regular (ro_limit o) ->
      zquery (QZrange k lo hi o) k (fun l => window (ro_limit o) (slice a b (directed (ro_rev o) l))) (ro_scores o)
  | zq_revrange k lo hi a b sc : int_text a lo -> int_text b hi ->
      zquery (QZrevrange k lo hi sc) k (fun l => slice a b (rev l)) sc
  | zq_byscore k t u lo hi lim sc : score_text lo t -> score_text hi u -> score_range_regular (lo, hi) -> limit_regular lim ->
      zquery (QZrangebyscore k t u sc lim) k (fun l => window lim (by_score (lo, hi) l)) sc
  | zq_revbyscore k t u lo hi lim sc : score_text lo t -> score_text hi u -> score_range_regular (lo, hi) -> limit_regular lim ->
      zquery (QZrevrangebyscore k u t sc lim) k (fun l => window lim (rev (by_score (lo, hi) l))) sc
  | zq_range_byscore k t u lo hi o : ro_order o = ByScore -> ro_rev o = false -> score_text lo t -> score_text hi u ->
      score_range_regular (lo, hi) -> limit_regular (ro_limit o) ->
      zquery (QZrange k t u o) k (fun l => window (ro_limit o) (by_score (lo, hi) l)) (ro_scores o)
  | zq_range_revbyscore k t u lo hi o : ro_order o = ByScore -> ro_rev o = true -> score_text lo t -> score_text hi u ->
      score_range_regular (lo, hi) -> limit_regular (ro_limit o) ->
      zquery (QZrange k u t o) k (fun l => window (ro_limit o) (rev (by_score (lo, hi) l))) (ro_scores o).
(** Queries by member name; they are specified only for sets in which all scores are equal. *)
Inductive lquery : request -> bytes -> (list node -> list node) -> bool -> Prop :=
  | lq_bylex k t u lo hi lim : lex_text true lo t -> lex_text false hi u -> lex_range_regular (lo, hi) -> limit_regular lim ->
      lquery (QZrangebylex k t u lim) k (fun l => window lim (by_lex (lo, hi) l)) false
  | lq_revbylex k t u lo hi lim : lex_text true lo t -> lex_text false hi u -> lex_range_regular (lo, hi) -> limit_regular lim ->
      lquery (QZrevrangebylex k u t lim) k (fun l => window lim (rev (by_lex (lo, hi) l))) false
  | lq_range_bylex k t u lo hi o : ro_order o = ByLex -> ro_rev o = false -> lex_text true lo t -> lex_text false hi u ->
      lex_range_regular (lo, hi) -> limit_regular (ro_limit o) ->
      lquery (QZrange k t u o) k (fun l => window (ro_limit o) (by_lex (lo, hi) l)) (ro_scores o)
  | lq_range_revbylex k t u lo hi o : ro_order o = ByLex -> ro_rev o = true -> lex_text true lo t -> lex_text false hi u ->
      lex_range_regular (lo, hi) -> limit_regular (ro_limit o) ->
      lquery (QZrange k u t o) k (fun l => window (ro_limit o) (rev (by_lex (lo, hi) l))) (ro_scores o).
(** Removals by interval: the nodes that go. *)
Inductive zremoval : request -> bytes -> (list node -> list node) -> Prop :=
  | zm_rank k a b : zremoval (QZremrangebyrank k a b) k (slice a b)
  | zm_score k t u lo hi : score_text lo t -> score_text hi u -> score_range_regular (lo, hi) ->
      zremoval (QZremrangebyscore k t u) k (by_score (lo, hi)).
Inductive lremoval : request -> bytes -> (list node -> list node) -> Prop :=
  | lm_lex k t u lo hi : lex_text true lo t -> lex_text false hi u -> lex_range_regular (lo, hi) ->
      lremoval (QZremrangebylex k t u) k (by_lex (lo, hi)).
(** The position of a member. *)
Definition position_reply (o : option nat) : frame := match o with Some i => counted i | None => FNull end.

(** ** Strings *)
(** GET prints integers as texts. *)
Definition got (en : env) (x : data) : frame :=
  match x with
  | DScalar (SString b) => FSimple b
  | DScalar (SBytes b) => FBulk b
  | DScalar (SInteger z) => FSimple (show_Z z)
  | DScalar (SFloat y) => FSimple (e_fmt en y)
  | DScalar SNull => FNull
  | _ => wrong_type
  end.
(** The counters: key and amount. *)
Definition counter_asks (q : request) : option (bytes * Z) :=
  match q with
  | QIncr k => Some (k, 1%Z)
  | QDecr k => Some (k, (-1)%Z)
  | QIncrby k n => Some (k, n)
  | QDecrby k n => Some (k, as_i64 (- n))
  | _ => None
  end.
(** SETEX and PSETEX: key, value, deadline (64 bits). *)
Definition setex_asks (t : N) (q : request) : option (bytes * scalar * N) :=
  match q with
  | QSetex k n x => Some (k, x, ((t + n * 1000) mod 2 ^ 64)%N)
  | QPsetex k n x => Some (k, x, ((t + n) mod 2 ^ 64)%N)
  | _ => None
  end.

(** EXPIRE and its siblings: key, the new deadline (64 bits; [t] is the time at which the request starts) and options. *)
Definition expire_wants (t : N) (q : request) : option (bytes * N * ex_opts) :=
  match q with
  | QExpire k n o => Some (k, ((t + n * 1000) mod 2 ^ 64)%N, o)
  | QPexpire k n o => Some (k, ((t + n) mod 2 ^ 64)%N, o)
  | QExpireat k n o => Some (k, ((n * 1000) mod 2 ^ 64)%N, o)
  | QPexpireat k n o => Some (k, n, o)
  | _ => None
  end.
(** What is visible at [t] of a value with deadline [d]. *)
Definition while_alive (t : N) (x : data) (d : N) : option (data * N) := if decide (lives t d) then Some (x, d) else None.
(** Scalars that counters take for numbers: integers, and texts that begin with one that fits 64 bits. *)
Definition counts_as (x : scalar) (z : Z) : Prop :=
  match x with
  | SInteger n => n = z
  | SBytes t | SString t => reads_as t z /\ (- 2 ^ 63 <= z < 2 ^ 63)%Z
  | _ => False
  end.
Definition is_text_value (x : scalar) : Prop := match x with SBytes _ | SString _ => True | _ => False end.

(** RESTORE: the deadline (64 bits). *)
Definition restore_deadline (t ttl : N) (o : restore_opts) : N :=
  if re_absttl o then ttl else if (ttl =? 0)%N then 0%N else ((t + ttl) mod 2 ^ 64)%N.
Definition busy_key : frame := FError (bs "BUSYKEY Target key name is busy").
Definition no_such_key : frame := FError (bs "ERR no such key").

(** ** The kind of value a request works on *)
Definition works_on (q : request) : option (bytes * kind) :=
  match q with
  | QGet k | QIncr k | QDecr k | QIncrby k _ | QDecrby k _ => Some (k, KString)
  | QLpush k _ | QRpush k _ | QLpushx k _ | QRpushx k _ | QLpop k _ | QRpop k _ | QLlen k | QLrange k _ _ => Some (k, KList)
  | QHset k _ | QHsetnx k _ _ | QHdel k _ | QHincrby k _ _ | QHget k _ | QHmget k _ | QHgetall k | QHexists k _ => Some (k, KHash)
  | QSadd k _ | QSrem k _ | QSismember k _ | QSmismember k _ | QSmembers k => Some (k, KSet)
  | QZadd k _ _ | QZrem k _ | QZrank k _ | QZrevrank k _ | QZremrangebyrank k _ _
  | QZrange k _ _ _ | QZrevrange k _ _ _ | QZrangebyscore k _ _ _ _ | QZrevrangebyscore k _ _ _ _
  | QZrangebylex k _ _ _ | QZrevrangebylex k _ _ _ | QZremrangebyscore k _ _ | QZremrangebylex k _ _ => Some (k, KZset)
  | _ => None
  end.
(** The texts of the bounds can be read. *)
Definition bounds_read (q : request) : Prop :=
  match q with
  | QZrange _ lo hi o =>
      match ro_order o with
      | ByRank => exists a b, int_text a lo /\ int_text b hi
      | ByScore => exists a b, score_text a lo /\ score_text b hi
      | ByLex => exists x y a b, lex_text x a lo /\ lex_text y b hi
      end
  | QZrevrange _ lo hi _ => exists a b, int_text a lo /\ int_text b hi
  | QZrangebyscore _ lo hi _ _ | QZrevrangebyscore _ lo hi _ _ | QZremrangebyscore _ lo hi => exists a b, score_text a lo /\ score_text b hi
  | QZrangebylex _ lo hi _ | QZrevrangebylex _ lo hi _ | QZremrangebylex _ lo hi => exists x y a b, lex_text x a lo /\ lex_text y b hi
  | _ => True
  end.
