(** Which request each command line stands for: the table of commands by the shape of their arguments, and the
    options of those that have any.  Independent of the parser (it mentions neither cursors nor parser results). *)
From Verif Require Export SpecRequest.

(** The shapes of argument lists without options; each carries the request made of the arguments. *)
Inductive shape :=
  | NoArgs (q : request)
  | OneKey (mk : bytes -> request)
  | OneCount (mk : N -> request)
  | Keys (mk : list bytes -> request)
  | KeyText (mk : bytes -> bytes -> request)
  | KeyInt (mk : bytes -> Z -> request)
  | KeyMaybeCount (mk : bytes -> N -> request)
  | KeyTexts (mk : bytes -> list bytes -> request)
  | KeyDatas (mk : bytes -> list scalar -> request)
  | KeyPairs (mk : bytes -> list (bytes * scalar) -> request)
  | KeyTextData (mk : bytes -> bytes -> scalar -> request)
  | KeyTextInt (mk : bytes -> bytes -> Z -> request)
  | KeyCountData (mk : bytes -> N -> scalar -> request)
  | KeyIntInt (mk : bytes -> Z -> Z -> request)
  | KeyStrStr (mk : bytes -> bytes -> bytes -> request).

(** ** Arguments *)
(** A stored value keeps the kind of frame it was sent in. *)
Definition is_data (x : scalar) (f : frame) : Prop :=
  match x with
  | SInteger z => f = FInteger z
  | SBytes b => f = FBulk b
  | SString b => f = FSimple b
  | _ => False
  end.
(** Text in UTF-8. *)
Definition is_utf8 (b : bytes) (f : frame) : Prop :=
  (is_text b f /\ utf8_valid b = true) \/ (f = FPing /\ b = bs "PING").
(** A frame that the server reads as the number [z]; all decimal numbers are among them ([number_read]), and for
    texts see C19_every_text. *)
Definition read_as (z : Z) (f : frame) : Prop :=
  f = FInteger z \/ exists b, is_text b f /\ atoi_i64 b = Some z.
(** Counts are 64-bit numbers without sign: negative ones wrap around. *)
Definition is_count (n : N) (f : frame) : Prop := exists z, read_as z f /\ n = Z.to_N (z mod 2 ^ 64).

(** The arguments [args] of shape [s] make up the request [q]. *)
Definition fits (s : shape) (args : list frame) (q : request) : Prop :=
  match s with
  | NoArgs q0 => args = [] /\ q = q0
  | OneKey mk => exists k f, args = [f] /\ is_text k f /\ q = mk k
  | OneCount mk => exists n f, args = [f] /\ is_count n f /\ q = mk n
  | Keys mk => exists ks, args <> [] /\ Forall2 is_text ks args /\ q = mk ks
  | KeyText mk => exists k t f g, args = [f; g] /\ is_text k f /\ is_text t g /\ q = mk k t
  | KeyInt mk => exists k z f g, args = [f; g] /\ is_text k f /\ read_as z g /\ q = mk k z
  | KeyMaybeCount mk => exists k f, is_text k f /\
      ((args = [f] /\ q = mk k 1%N) \/ exists n g, args = [f; g] /\ is_count n g /\ q = mk k n)
  | KeyTexts mk => exists k ts f fs, args = f :: fs /\ fs <> [] /\ is_text k f /\ Forall2 is_text ts fs /\ q = mk k ts
  | KeyDatas mk => exists k xs f fs, args = f :: fs /\ fs <> [] /\ is_text k f /\ Forall2 is_data xs fs /\ q = mk k xs
  | KeyPairs mk => exists k es f fss, args = f :: concat fss /\ fss <> [] /\ is_text k f /\
      Forall2 (fun e fs => exists g h, fs = [g; h] /\ is_text (fst e) g /\ is_data (snd e) h) es fss /\ q = mk k es
  | KeyTextData mk => exists k t x f g h, args = [f; g; h] /\ is_text k f /\ is_text t g /\ is_data x h /\ q = mk k t x
  | KeyTextInt mk => exists k t z f g h, args = [f; g; h] /\ is_text k f /\ is_text t g /\ read_as z h /\ q = mk k t z
  | KeyCountData mk => exists k n x f g h, args = [f; g; h] /\ is_text k f /\ is_count n g /\ is_data x h /\ q = mk k n x
  | KeyIntInt mk => exists k a b f g h, args = [f; g; h] /\ is_text k f /\ read_as a g /\ read_as b h /\ q = mk k a b
  | KeyStrStr mk => exists k a b f g h, args = [f; g; h] /\ is_text k f /\ is_utf8 a g /\ is_utf8 b h /\ q = mk k a b
  end.

(** The commands without options. *)
Definition plain_commands : list (bytes * shape) :=
  [ (bs "ping", NoArgs QPing);
    (bs "info", NoArgs QInfo);
    (bs "get", OneKey QGet);
    (bs "incr", OneKey QIncr);
    (bs "decr", OneKey QDecr);
    (bs "ttl", OneKey QTtl);
    (bs "pttl", OneKey QPttl);
    (bs "dump", OneKey QDump);
    (bs "hgetall", OneKey QHgetall);
    (bs "llen", OneKey QLlen);
    (bs "smembers", OneKey QSmembers);
    (bs "syncsnapshot", OneCount QSyncsnapshot);
    (bs "del", Keys QDel);
    (bs "exists", Keys QExists);
    (bs "hget", KeyText QHget);
    (bs "hexists", KeyText QHexists);
    (bs "sismember", KeyText QSismember);
    (bs "zrank", KeyText QZrank);
    (bs "zrevrank", KeyText QZrevrank);
    (bs "incrby", KeyInt QIncrby);
    (bs "decrby", KeyInt QDecrby);
    (bs "lpop", KeyMaybeCount QLpop);
    (bs "rpop", KeyMaybeCount QRpop);
    (bs "sadd", KeyTexts QSadd);
    (bs "srem", KeyTexts QSrem);
    (bs "smismember", KeyTexts QSmismember);
    (bs "hdel", KeyTexts QHdel);
    (bs "hmget", KeyTexts QHmget);
    (bs "zrem", KeyTexts QZrem);
    (bs "object", KeyTexts QObject);
    (bs "debug", KeyTexts QDebug);
    (bs "config", KeyTexts QConfig);
    (bs "lpush", KeyDatas QLpush);
    (bs "rpush", KeyDatas QRpush);
    (bs "lpushx", KeyDatas QLpushx);
    (bs "rpushx", KeyDatas QRpushx);
    (bs "hset", KeyPairs QHset);
    (bs "hsetnx", KeyTextData QHsetnx);
    (bs "hincrby", KeyTextInt QHincrby);
    (bs "setex", KeyCountData QSetex);
    (bs "psetex", KeyCountData QPsetex);
    (bs "lrange", KeyIntInt QLrange);
    (bs "zremrangebyrank", KeyIntInt QZremrangebyrank);
    (bs "zremrangebyscore", KeyStrStr QZremrangebyscore);
    (bs "zremrangebylex", KeyStrStr QZremrangebylex) ].
(** The commands with options. *)
Definition option_commands : list bytes :=
  [ bs "set"; bs "expire"; bs "expireat"; bs "pexpire"; bs "pexpireat"; bs "zadd"; bs "zrange"; bs "zrangebyscore";
    bs "zrevrangebyscore"; bs "zrangebylex"; bs "zrevrangebylex"; bs "zrevrange"; bs "restore"; bs "flushall" ].

(** ** Options not in SpecRequest *)
(** ZADD *)
Inductive zopt := ZNx | ZXx | ZGt | ZLt | ZCh | ZIncr.
Global Instance zopt_eq_dec : EqDecision zopt. Proof. solve_decision. Defined.
Definition zword (o : zopt) : bytes :=
  match o with ZNx => bs "nx" | ZXx => bs "xx" | ZGt => bs "gt" | ZLt => bs "lt" | ZCh => bs "ch" | ZIncr => bs "incr" end.
Definition znx_of (o : zopt) : option nx_xx := match o with ZNx => Some NxXx_Nx | ZXx => Some NxXx_Xx | _ => None end.
Definition zgl_of (o : zopt) : option gt_lt := match o with ZGt => Some GtLt_Gt | ZLt => Some GtLt_Lt | _ => None end.
(** A pair of score and member. *)
Definition is_scored (p : f64 * bytes) (fs : list frame) : Prop :=
  exists f g, fs = [f; g] /\ as_float f = Some (fst p) /\ is_text (snd p) g.
(** WITHSCORES and LIMIT *)
Inductive wopt := WLimit (a b : Z) | WScores.
Inductive wspells : wopt -> list frame -> Prop :=
  | ws_limit a b f g h : is_word (bs "limit") f -> read_as a g -> read_as b h -> wspells (WLimit a b) [f; g; h]
  | ws_scores f : is_word (bs "withscores") f -> wspells WScores [f].
Definition wlimit_of (o : wopt) : option limit := match o with WLimit a b => Some (Some (a, b)) | _ => None end.
Definition wscores_of (o : wopt) : option bool := match o with WScores => Some true | _ => None end.
(** RESTORE *)
Inductive topt := TReplace | TAbsttl | TIdle (n : N) | TFreq (n : N).
Inductive tspells : topt -> list frame -> Prop :=
  | ts_replace f : is_word (bs "replace") f -> tspells TReplace [f]
  | ts_absttl f : is_word (bs "absttl") f -> tspells TAbsttl [f]
  | ts_idle n f g : is_word (bs "idletime") f -> is_count n g -> tspells (TIdle n) [f; g]
  | ts_freq n f g : is_word (bs "freq") f -> is_count n g -> tspells (TFreq n) [f; g].
Definition treplace_of (o : topt) : option bool := match o with TReplace => Some true | _ => None end.
Definition tabsttl_of (o : topt) : option bool := match o with TAbsttl => Some true | _ => None end.
Definition tidle_of (o : topt) : option (option N) := match o with TIdle n => Some (Some n) | _ => None end.
Definition tfreq_of (o : topt) : option (option N) := match o with TFreq n => Some (Some n) | _ => None end.
