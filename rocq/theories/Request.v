(** From frames to requests: component/common/src/connection/parse/mod.rs (Parse), component/common/src/options,
    the code generated by component/macros/src/parse_frames.rs for each command struct of
    component/server/src/cmd, and component/server/src/cmd/mod.rs (Command::from_frame). *)
From Verif Require Export Frame Text Types.

(** ** Parse: a cursor over the elements of an array frame (parse/mod.rs:17-20). *)
Notation cursor := (list frame).
(** [Ok], [Err(ParseError::EndOfStream)], [Err(ParseError::Other(..))] (parse/mod.rs:27-34).  An error of the
    second kind always ends the request, so the cursor it leaves behind does not matter. *)
Inductive qres (A : Type) := QOk (a : A) (c : cursor) | QEnd | QErr.
Arguments QOk {A} a c. Arguments QEnd {A}. Arguments QErr {A}.
(** The type of the methods of [Parse] (parse/mod.rs:46-177). *)
Definition qparser (A : Type) := cursor -> qres A.
(** The operator [?]. parse/mod.rs:93. *)
Definition qbind {A B} (f : qparser A) (g : A -> qparser B) : qparser B :=
  fun c => match f c with QOk a c' => g a c' | QEnd => QEnd | QErr => QErr end.
Notation "x <-? f ;; g" := (qbind f (fun x => g)) (at level 100, f at next level, right associativity).
(** [Ok(a)]: parse/mod.rs:156. *)
Definition qret {A} (a : A) : qparser A := fun c => QOk a c.
(** [.map(..)] on the result. parse/mod.rs:83. *)
Definition qmap {A B} (f : A -> B) (p : qparser A) : qparser B := a <-? p;; qret (f a).

(** next_frame (parse/mod.rs:69-74) followed by a conversion that may fail. *)
Definition next {A} (conv : frame -> option A) : qparser A :=
  fun c => match c with
           | [] => QEnd
           | f :: c' => match conv f with Some a => QOk a c' | None => QErr end
           end.
(** next_bytes, next_bulk, next_key (parse/mod.rs:82-97, 115-120) *)
Definition as_bytes (f : frame) : option bytes :=
  match f with FBulk b | FSimple b => Some b | _ => None end.
(** TryFrom<Frame> for &str (frame.rs:254-267), used by next_str and next_string (parse/mod.rs:127-138) *)
Definition as_str (f : frame) : option bytes :=
  match f with
  | FBulk b | FSimple b => if utf8_valid b then Some b else None
  | FPing => Some (bs "PING")
  | _ => None
  end.
(** to_lowercase_str (frame.rs:271-279) *)
Definition as_tag (f : frame) : option bytes := option_map lowercase (as_str f).
(** next_int (parse/mod.rs:149-164) *)
Definition as_int (f : frame) : option Z :=
  match f with FInteger z => Some z | FBulk b | FSimple b => atoi_i64 b | _ => None end.
(** [next_int().map(|t| t as u64)] (parse_frames.rs:61-63) *)
Definition as_u64 (f : frame) : option N := option_map i64_as_u64 (as_int f).
(** TryFrom<Frame> for Float (frame.rs:281-300) *)
Definition as_float (f : frame) : option f64 :=
  match f with
  | FBulk b | FSimple b => if utf8_valid b then parse_f64 b else None
  | FInteger z => Some (f64_of_Z z)
  | _ => None
  end.
(** next_data_type (component/server/src/frame_parse.rs:4-11) *)
Definition as_data (f : frame) : option scalar :=
  match f with
  | FInteger z => Some (SInteger z)
  | FBulk b => Some (SBytes b)
  | FSimple b => Some (SString b)
  | _ => None
  end.

(** ** Fields of compound type (parse_frames.rs:106-177) *)

(** [Vec<T>], the loop after the first element (parse_frames.rs:165-173) *)
Fixpoint rest_of {A} (conv : frame -> option A) (c : cursor) : qres (list A) :=
  match c with
  | [] => QOk [] []
  | f :: c' =>
      match conv f with
      | None => QErr
      | Some a => match rest_of conv c' with QOk l c'' => QOk (a :: l) c'' | QEnd => QEnd | QErr => QErr end
      end
  end.
(** [Vec<T>]: at least one element *)
Definition many {A} (conv : frame -> option A) : qparser (list A) :=
  a <-? next conv;; l <-? rest_of conv;; qret (a :: l).
(** [Vec<(T, U)>], the loop after the first pair (parse_frames.rs:139-163): the stream may end only before a pair. *)
Fixpoint rest_pairs {A B} (c1 : frame -> option A) (c2 : frame -> option B) (c : cursor) : qres (list (A * B)) :=
  match c with
  | [] => QOk [] []
  | [f] => match c1 f with Some _ => QEnd | None => QErr end
  | f :: g :: c' =>
      match c1 f, c2 g with
      | Some a, Some b =>
          match rest_pairs c1 c2 c' with QOk l c'' => QOk ((a, b) :: l) c'' | QEnd => QEnd | QErr => QErr end
      | _, _ => QErr
      end
  end.
(** [Vec<(T, U)>] *)
Definition many_pairs {A B} (c1 : frame -> option A) (c2 : frame -> option B) : qparser (list (A * B)) :=
  a <-? next c1;; b <-? next c2;; l <-? rest_pairs c1 c2;; qret ((a, b) :: l).
(** [#\[default(d)\]]: the end of the stream is not an error (parse_frames.rs:75-97). *)
Definition defaulted {A} (d : A) (p : qparser A) : qparser A :=
  fun c => match p c with QEnd => QOk d c | r => r end.

(** ** Optional fields (parse_frames.rs:200-292): a loop that takes frame after frame as long as its text is a
    known tag.  [step] is the chain of generated [if]s: [None] when no field knows the tag. *)
Fixpoint options {S} (fuel : nat) (step : bytes -> S -> option (qparser S)) (s : S) (c : cursor)
  : qres (S * option frame) :=
  match c with
  | [] => QOk (s, None) []
  | f :: c' =>
      match as_tag f with
      | None => QOk (s, Some f) c'
      | Some t =>
          match step t s with
          | None => QOk (s, Some f) c'
          | Some p =>
              match fuel with
              | O => QErr
              | Datatypes.S fuel' =>
                  match p c' with
                  | QOk s' c'' => options fuel' step s' c''
                  | QEnd => QEnd
                  | QErr => QErr
                  end
              end
          end
      end
  end.
(** The loop always ends: every round takes a frame (RequestFacts.options_fuel). macros/src/parse_frames.rs. *)
Definition optional {S} (step : bytes -> S -> option (qparser S)) (s : S) : qparser (S * option frame) :=
  fun c => options (length c) step s c.
(** When no required field follows, the frame that ended the loop is dropped (the variable [next] is unused).
    macros/src/parse_frames.rs. *)
Definition trailing {S} (step : bytes -> S -> option (qparser S)) (s : S) : qparser S :=
  r <-? optional step s;; qret (fst r).

(** options/nx_xx.rs:16-25 *)
Definition opt_nx (t : bytes) : option nx_xx :=
  if bool_decide (t = bs "nx") then Some NxXx_Nx else if bool_decide (t = bs "xx") then Some NxXx_Xx else None.
(** options/gt_lt.rs:20-33 *)
Definition opt_gl (t : bytes) : option gt_lt :=
  if bool_decide (t = bs "gt") then Some GtLt_Gt else if bool_decide (t = bs "lt") then Some GtLt_Lt else None.
(** options/limit.rs:24-36 *)
Definition opt_limit (t : bytes) : option (qparser limit) :=
  if bool_decide (t = bs "limit") then Some (a <-? next as_int;; b <-? next as_int;; qret (Some (a, b))) else None.
(** options/set_cmd_expires.rs *)
Inductive set_expires := ExEx (n : N) | ExPx (n : N) | ExExat (n : N) | ExPxat (n : N) | ExKeepttl | ExNone.
Global Instance set_expires_eq_dec : EqDecision set_expires. Proof. solve_decision. Defined.
Definition opt_expires (t : bytes) : option (qparser set_expires) :=
  if bool_decide (t = bs "ex") then Some (qmap ExEx (next as_u64))
  else if bool_decide (t = bs "px") then Some (qmap ExPx (next as_u64))
  else if bool_decide (t = bs "exat") then Some (qmap ExExat (next as_u64))
  else if bool_decide (t = bs "pxat") then Some (qmap ExPxat (next as_u64))
  else if bool_decide (t = bs "keepttl") then Some (qret ExKeepttl)
  else None.
(** options/freq.rs:17-30 and options/idletime.rs:17-30 *)
Definition opt_u64 (name t : bytes) : option (qparser (option N)) :=
  if bool_decide (t = name) then Some (qmap Some (next as_u64)) else None.
(** options/range_cmd_order.rs:7-12, 55-66 *)
Inductive range_order := ByRank | ByScore | ByLex.
Global Instance range_order_eq_dec : EqDecision range_order. Proof. solve_decision. Defined.
Definition opt_order (t : bytes) : option range_order :=
  if bool_decide (t = bs "byscore") then Some ByScore
  else if bool_decide (t = bs "bylex") then Some ByLex else None.
(** A [bool] field (parse_frames.rs:238-247): its name is the tag. *)
Definition opt_flag (name t : bytes) : bool := bool_decide (t = name).

(** ** Requests: one constructor per command struct of component/server/src/cmd, arguments in field order *)
(** cmd/base/set.rs:17-30. *)
Record set_opts := SetOpts { so_expires : set_expires; so_nx : nx_xx; so_get : bool }.
(** cmd/base/expire.rs, expireat.rs, pexpire.rs, pexpireat.rs *)
Record ex_opts := ExOpts { eo_nx : nx_xx; eo_gl : gt_lt }.
(** cmd/sorted_set/zadd.rs:11-21 *)
Record zadd_opts := ZaddOpts { zo_nx : nx_xx; zo_gl : gt_lt; zo_ch : bool; zo_incr : bool }.
(** cmd/sorted_set/zrange.rs *)
Record range_opts := RangeOpts { ro_order : range_order; ro_rev : bool; ro_limit : limit; ro_scores : bool }.
(** cmd/others/restore.rs:11-21 *)
Record restore_opts := RestoreOpts { re_replace : bool; re_absttl : bool; re_idle : option N; re_freq : option N }.

(** server/src/cmd/mod.rs:40-119 (Command, Read, Write) *)
Inductive request :=
  | QPing
  | QUnknown (name : bytes) (params : list frame)
  | QSyncsnapshot (slot : N)
  (* base *)
  | QDecr (k : bytes)
  | QDecrby (k : bytes) (n : Z)
  | QDel (ks : list bytes)
  | QExists (ks : list bytes)
  | QExpire (k : bytes) (n : N) (o : ex_opts)
  | QExpireat (k : bytes) (n : N) (o : ex_opts)
  | QGet (k : bytes)
  | QIncr (k : bytes)
  | QIncrby (k : bytes) (n : Z)
  | QPexpire (k : bytes) (n : N) (o : ex_opts)
  | QPexpireat (k : bytes) (n : N) (o : ex_opts)
  | QPsetex (k : bytes) (n : N) (x : scalar)
  | QPttl (k : bytes)
  | QSet (k : bytes) (x : scalar) (o : set_opts)
  | QSetex (k : bytes) (n : N) (x : scalar)
  | QTtl (k : bytes)
  (* hash *)
  | QHdel (k : bytes) (fs : list bytes)
  | QHexists (k f : bytes)
  | QHget (k f : bytes)
  | QHgetall (k : bytes)
  | QHincrby (k f : bytes) (n : Z)
  | QHmget (k : bytes) (fs : list bytes)
  | QHset (k : bytes) (es : list (bytes * scalar))
  | QHsetnx (k f : bytes) (x : scalar)
  (* list *)
  | QLlen (k : bytes)
  | QLpop (k : bytes) (n : N)
  | QLpush (k : bytes) (xs : list scalar)
  | QLpushx (k : bytes) (xs : list scalar)
  | QLrange (k : bytes) (a b : Z)
  | QRpop (k : bytes) (n : N)
  | QRpush (k : bytes) (xs : list scalar)
  | QRpushx (k : bytes) (xs : list scalar)
  (* others *)
  | QConfig (sub : bytes) (ps : list bytes)
  | QDebug (sub : bytes) (ps : list bytes)
  | QDump (k : bytes)
  | QFlushall (sync : bool)
  | QInfo
  | QObject (sub : bytes) (ps : list bytes)
  | QRestore (k : bytes) (ttl : N) (v : bytes) (o : restore_opts)
  (* set *)
  | QSadd (k : bytes) (ms : list bytes)
  | QSismember (k m : bytes)
  | QSmembers (k : bytes)
  | QSmismember (k : bytes) (ms : list bytes)
  | QSrem (k : bytes) (ms : list bytes)
  (* sorted set *)
  | QZadd (k : bytes) (o : zadd_opts) (ns : list (f64 * bytes))
  | QZrange (k lo hi : bytes) (o : range_opts)
  | QZrangebylex (k lo hi : bytes) (lim : limit)
  | QZrangebyscore (k lo hi : bytes) (scores : bool) (lim : limit)
  | QZrank (k m : bytes)
  | QZrem (k : bytes) (ms : list bytes)
  | QZremrangebylex (k lo hi : bytes)
  | QZremrangebyrank (k : bytes) (a b : Z)
  | QZremrangebyscore (k lo hi : bytes)
  | QZrevrange (k lo hi : bytes) (scores : bool)
  | QZrevrangebylex (k lo hi : bytes) (lim : limit)
  | QZrevrangebyscore (k lo hi : bytes) (scores : bool) (lim : limit)
  | QZrevrank (k m : bytes).

(** *** The generated option loops *)
(** cmd/base/set.rs:23-30 *)
Definition set_step (t : bytes) (s : set_opts) : option (qparser set_opts) :=
  match opt_expires t with
  | Some p => Some (qmap (fun e => SetOpts e (so_nx s) (so_get s)) p)
  | None =>
      match opt_nx t with
      | Some n => Some (qret (SetOpts (so_expires s) n (so_get s)))
      | None => if opt_flag (bs "get") t then Some (qret (SetOpts (so_expires s) (so_nx s) true)) else None
      end
  end.
(** cmd/base/{expire,expireat,pexpire,pexpireat}.rs: fields nx_xx, gt_lt *)
Definition ex_step (t : bytes) (s : ex_opts) : option (qparser ex_opts) :=
  match opt_nx t with
  | Some n => Some (qret (ExOpts n (eo_gl s)))
  | None => match opt_gl t with Some g => Some (qret (ExOpts (eo_nx s) g)) | None => None end
  end.
(** cmd/sorted_set/zadd.rs:13-19 *)
Definition zadd_step (t : bytes) (s : zadd_opts) : option (qparser zadd_opts) :=
  match opt_nx t with
  | Some n => Some (qret (ZaddOpts n (zo_gl s) (zo_ch s) (zo_incr s)))
  | None =>
      match opt_gl t with
      | Some g => Some (qret (ZaddOpts (zo_nx s) g (zo_ch s) (zo_incr s)))
      | None =>
          if opt_flag (bs "ch") t then Some (qret (ZaddOpts (zo_nx s) (zo_gl s) true (zo_incr s)))
          else if opt_flag (bs "incr") t then Some (qret (ZaddOpts (zo_nx s) (zo_gl s) (zo_ch s) true))
          else None
      end
  end.
(** cmd/sorted_set/zrange.rs:13-18 *)
Definition zrange_step (t : bytes) (s : range_opts) : option (qparser range_opts) :=
  match opt_order t with
  | Some o => Some (qret (RangeOpts o (ro_rev s) (ro_limit s) (ro_scores s)))
  | None =>
      if opt_flag (bs "rev") t then Some (qret (RangeOpts (ro_order s) true (ro_limit s) (ro_scores s)))
      else match opt_limit t with
           | Some p => Some (qmap (fun l => RangeOpts (ro_order s) (ro_rev s) l (ro_scores s)) p)
           | None =>
               if opt_flag (bs "withscores") t then Some (qret (RangeOpts (ro_order s) (ro_rev s) (ro_limit s) true))
               else None
           end
  end.
(** cmd/sorted_set/{zrangebylex,zrevrangebylex}.rs: field limit *)
Definition limit_step (t : bytes) (s : limit) : option (qparser limit) := opt_limit t.
(** cmd/sorted_set/{zrangebyscore,zrevrangebyscore}.rs: fields withscores, limit *)
Definition scores_step (t : bytes) (s : bool * limit) : option (qparser (bool * limit)) :=
  if opt_flag (bs "withscores") t then Some (qret (true, snd s))
  else match opt_limit t with Some p => Some (qmap (fun l => (fst s, l)) p) | None => None end.
(** a single bool field: cmd/sorted_set/zrevrange.rs (withscores), cmd/others/flushall.rs (sync) *)
Definition flag_step (name t : bytes) (s : bool) : option (qparser bool) :=
  if opt_flag name t then Some (qret true) else None.
(** cmd/others/restore.rs:16-21; the tag of IdleTime is "idletime". *)
Definition restore_step (t : bytes) (s : restore_opts) : option (qparser restore_opts) :=
  if opt_flag (bs "replace") t then Some (qret (RestoreOpts true (re_absttl s) (re_idle s) (re_freq s)))
  else if opt_flag (bs "absttl") t then Some (qret (RestoreOpts (re_replace s) true (re_idle s) (re_freq s)))
  else match opt_u64 (bs "idletime") t with
       | Some p => Some (qmap (fun i => RestoreOpts (re_replace s) (re_absttl s) i (re_freq s)) p)
       | None =>
           match opt_u64 (bs "freq") t with
           | Some p => Some (qmap (fun i => RestoreOpts (re_replace s) (re_absttl s) (re_idle s) i) p)
           | None => None
           end
       end.

(** *** The generated [parse_frames], by shape of the struct *)
(** one key:
    cmd/base/get.rs, ttl.rs, pttl.rs, incr.rs, decr.rs, cmd/list/llen.rs, cmd/set/smembers.rs, cmd/hash/hgetall.rs, cmd/others/dump.rs. *)
Definition p_key (f : bytes -> request) : qparser request := qmap f (next as_bytes).
(** key and one more field:
    cmd/base/incrby.rs, decrby.rs, cmd/hash/hget.rs, hexists.rs, cmd/set/sismember.rs, cmd/sorted_set/zrank.rs, zrevrank.rs. *)
Definition p_key1 {A} (conv : frame -> option A) (f : bytes -> A -> request) : qparser request :=
  k <-? next as_bytes;; a <-? next conv;; qret (f k a).
(** key and two more fields: cmd/base/setex.rs, psetex.rs, cmd/hash/hsetnx.rs, hincrby.rs, cmd/list/lrange.rs. *)
Definition p_key2 {A B} (c1 : frame -> option A) (c2 : frame -> option B) (f : bytes -> A -> B -> request)
  : qparser request :=
  k <-? next as_bytes;; a <-? next c1;; b <-? next c2;; qret (f k a b).
(** a list of keys: cmd/base/del.rs, exists.rs. *)
Definition p_keys (f : list bytes -> request) : qparser request := qmap f (many as_bytes).
(** key and a list *)
Definition p_key_many {A} (conv : frame -> option A) (f : bytes -> list A -> request) : qparser request :=
  k <-? next as_bytes;; l <-? many conv;; qret (f k l).
(** key, number, then nx_xx and gt_lt (cmd/base/expire.rs and its siblings) *)
Definition p_expire (f : bytes -> N -> ex_opts -> request) : qparser request :=
  k <-? next as_bytes;; n <-? next as_u64;; o <-? trailing ex_step (ExOpts NxXx_None GtLt_None);; qret (f k n o).
(** key and count with default 1 (cmd/list/lpop.rs, rpop.rs) *)
Definition p_pop (f : bytes -> N -> request) : qparser request :=
  k <-? next as_bytes;; n <-? defaulted 1%N (next as_u64);; qret (f k n).
(** cmd/base/set.rs:17-30 *)
Definition p_set : qparser request :=
  k <-? next as_bytes;; x <-? next as_data;; o <-? trailing set_step (SetOpts ExNone NxXx_None false);; qret (QSet k x o).
(** cmd/sorted_set/zadd.rs:11-21.  The frame that ended the option loop is the first score ([try_into(next?)]). *)
Definition p_zadd : qparser request :=
  k <-? next as_bytes;;
  r <-? optional zadd_step (ZaddOpts NxXx_None GtLt_None false false);;
  match snd r with
  | None => fun _ => QEnd
  | Some f =>
      match as_float f with
      | None => fun _ => QErr
      | Some x => m <-? next as_bytes;; l <-? rest_pairs as_float as_bytes;; qret (QZadd k (fst r) ((x, m) :: l))
      end
  end.
(** key, min, max, then options: cmd/sorted_set/zrange*.rs, zrevrange*.rs. *)
Definition p_range {S} (step : bytes -> S -> option (qparser S)) (s : S) (f : bytes -> bytes -> bytes -> S -> request)
  : qparser request :=
  k <-? next as_bytes;; lo <-? next as_str;; hi <-? next as_str;; o <-? trailing step s;; qret (f k lo hi o).
(** key, min, max *)
Definition p_minmax (f : bytes -> bytes -> bytes -> request) : qparser request := p_key2 as_str as_str f.
(** cmd/others/restore.rs:11-21 *)
Definition p_restore : qparser request :=
  k <-? next as_bytes;; n <-? next as_u64;; v <-? next as_bytes;;
  o <-? trailing restore_step (RestoreOpts false false None None);; qret (QRestore k n v o).

(** cmd/mod.rs:150-223, the table of command names *)
Definition commands : list (bytes * qparser request) :=
  [ (bs "ping", qret QPing);
    (bs "ttl", p_key QTtl);
    (bs "pttl", p_key QPttl);
    (bs "zrangebylex", p_range limit_step None QZrangebylex);
    (bs "zrangebyscore", p_range scores_step (false, None) (fun k lo hi o => QZrangebyscore k lo hi (fst o) (snd o)));
    (bs "zrank", p_key1 as_bytes QZrank);
    (bs "zrem", p_key_many as_bytes QZrem);
    (bs "zremrangebylex", p_minmax QZremrangebylex);
    (bs "zremrangebyrank", p_key2 as_int as_int QZremrangebyrank);
    (bs "zremrangebyscore", p_minmax QZremrangebyscore);
    (bs "zrevrange", p_range (flag_step (bs "withscores")) false QZrevrange);
    (bs "zrevrangebylex", p_range limit_step None QZrevrangebylex);
    (bs "zrevrangebyscore",
      p_range scores_step (false, None) (fun k lo hi o => QZrevrangebyscore k lo hi (fst o) (snd o)));
    (bs "zrevrank", p_key1 as_bytes QZrevrank);
    (bs "zrange", p_range zrange_step (RangeOpts ByRank false None false) QZrange);
    (bs "zadd", p_zadd);
    (bs "sadd", p_key_many as_bytes QSadd);
    (bs "sismember", p_key1 as_bytes QSismember);
    (bs "smismember", p_key_many as_bytes QSmismember);
    (bs "smembers", p_key QSmembers);
    (bs "srem", p_key_many as_bytes QSrem);
    (bs "hincrby", p_key2 as_bytes as_int QHincrby);
    (bs "hexists", p_key1 as_bytes QHexists);
    (bs "hdel", p_key_many as_bytes QHdel);
    (bs "hsetnx", p_key2 as_bytes as_data QHsetnx);
    (bs "hget", p_key1 as_bytes QHget);
    (bs "hmget", p_key_many as_bytes QHmget);
    (bs "hset", k <-? next as_bytes;; l <-? many_pairs as_bytes as_data;; qret (QHset k l));
    (bs "hgetall", p_key QHgetall);
    (bs "llen", p_key QLlen);
    (bs "rpop", p_pop QRpop);
    (bs "lpop", p_pop QLpop);
    (bs "lrange", p_key2 as_int as_int QLrange);
    (bs "lpush", p_key_many as_data QLpush);
    (bs "rpush", p_key_many as_data QRpush);
    (bs "lpushx", p_key_many as_data QLpushx);
    (bs "rpushx", p_key_many as_data QRpushx);
    (bs "incrby", p_key1 as_int QIncrby);
    (bs "incr", p_key QIncr);
    (bs "decrby", p_key1 as_int QDecrby);
    (bs "decr", p_key QDecr);
    (bs "get", p_key QGet);
    (bs "set", p_set);
    (bs "del", p_keys QDel);
    (bs "exists", p_keys QExists);
    (bs "psetex", p_key2 as_u64 as_data QPsetex);
    (bs "setex", p_key2 as_u64 as_data QSetex);
    (bs "pexpireat", p_expire QPexpireat);
    (bs "expireat", p_expire QExpireat);
    (bs "expire", p_expire QExpire);
    (bs "pexpire", p_expire QPexpire);
    (bs "syncsnapshot", qmap QSyncsnapshot (next as_u64));
    (bs "flushall", qmap QFlushall (trailing (flag_step (bs "sync")) false));
    (bs "info", qret QInfo);
    (bs "dump", p_key QDump);
    (bs "restore", p_restore);
    (bs "debug", p_key_many as_bytes QDebug);
    (bs "config", p_key_many as_bytes QConfig);
    (bs "object", p_key_many as_bytes QObject) ].

(** The [match &*command_name]. server/src/cmd/mod.rs:147-230. *)
Fixpoint lookup_command (name : bytes) (t : list (bytes * qparser request)) : option (qparser request) :=
  match t with
  | [] => None
  | (n, p) :: t' => if bool_decide (name = n) then Some p else lookup_command name t'
  end.

(** Command::from_frame (cmd/mod.rs:130-240); [None] is [Err(_)].  Parse::new is parse/mod.rs:51-62,
    Unknown::new is cmd/base/unknown.rs:13-22 (takes every remaining frame), finish is parse/mod.rs:170-176. *)
Definition from_frame (f : frame) : option request :=
  match (match f with FArray l => Some l | FPing => Some [FPing] | _ => None end) with
  | None => None
  | Some c =>
      match next as_str c with
      | QOk n c1 =>
          match lookup_command (lowercase n) commands with
          | Some p => match p c1 with QOk q [] => Some q | _ => None end
          | None => Some (QUnknown (lowercase n) c1)
          end
      | _ => None
      end
  end.
