(** Execution of requests and the connection loop: component/server/src/cmd/*/*.rs (the [apply] methods),
    component/server/src/frame_parse.rs, component/server/src/lib.rs (Handler::run). *)
From Verif Require Export Request Db.

(** What the model does not compute itself:
    - [e_ho]: the iteration order of hash maps;
    - [e_fmt]: [f64::to_string()] (shortest decimal text);
    - [e_bincode]: the message of the error with which bincode rejects a payload. *)
Record env := Env { e_ho : horder; e_fmt : f64 -> bytes; e_bincode : bytes -> bytes }.

(** ** Errors of the server layer *)
Inductive serr :=
  | SDict (e : err)
  | SNoSuchKey    (** cmd/others/debug.rs:21 *)
  | SNoIdle       (** cmd/others/object.rs:21, 31 *)
  | SNoFreq       (** cmd/others/object.rs:38, 45 *)
  | SBound        (** options/range_cmd_order.rs:41 *)
  | SFloatErr (empty : bool)   (** std::num::ParseFloatError *)
  | SIntErr (e : int_err).     (** std::num::ParseIntError *)
Global Instance serr_eq_dec : EqDecision serr. Proof. solve_decision. Defined.

(** [e.to_string()]; [payload] is the argument of a failing RESTORE. server/src/lib.rs:252. *)
Definition err_text (en : env) (payload : bytes) (e : serr) : bytes :=
  match e with
  | SDict EWrongType => bs "WRONGTYPE Operation against a key holding the wrong kind of value"
  | SDict ENotInt => bs "value is not an integer or out of range"
  | SDict EBusyKey => bs "BUSYKEY Target key name is busy"
  | SDict EBincode => e_bincode en payload
  | SNoSuchKey => bs "ERR no such key"
  | SNoIdle => bs "idletiem key not exists"
  | SNoFreq => bs "freq key not exists"
  | SBound => bs "bound invaild"
  | SFloatErr true => bs "cannot parse float from empty string"
  | SFloatErr false => bs "invalid float literal"
  | SIntErr IntEmpty => bs "cannot parse integer from empty string"
  | SIntErr IntInvalid => bs "invalid digit found in string"
  | SIntErr IntPosOverflow => bs "number too large to fit in target type"
  | SIntErr IntNegOverflow => bs "number too small to fit in target type"
  end.

(** A computation that may fail or panic before any database access.
    The [Result] of the [apply] methods (server/src/cmd/mod.rs:244, 283). *)
Inductive attempt (A : Type) := AOk (a : A) | AErr (e : serr) | APanic.
Arguments AOk {A} a. Arguments AErr {A} e. Arguments APanic {A}.
(** The operator [?]. server/src/cmd/*/*.rs. *)
Definition abind {A B} (x : attempt A) (f : A -> attempt B) : attempt B :=
  match x with AOk a => f a | AErr e => AErr e | APanic => APanic end.

(** [s.parse::<f64>()?]: options/range_cmd_order.rs:25-34. *)
Definition float_of (t : bytes) : attempt f64 :=
  match parse_f64 t with Some x => AOk x | None => AErr (SFloatErr (bool_decide (t = []))) end.
(** [s.parse::<i64>()?]: cmd/sorted_set/zrange.rs. *)
Definition int_of (t : bytes) : attempt Z :=
  match parse_i64 t with inl z => AOk z | inr e => AErr (SIntErr e) end.
(** [&data\[..i\]] of a [str] panics unless [i] is a character boundary: the byte at [i] is then a continuation byte. *)
Definition splits_char (i : nat) (t : bytes) : bool :=
  match nth_error t i with Some b => cont b | None => false end.
(** RangeCmdOrder::parse_float_bound (options/range_cmd_order.rs:25-34).  The comparison of a text of three
    bytes with "-inf" and "+inf" is never true; infinities are parsed as floats. *)
Definition float_bound (t : bytes) : attempt (bound f64) :=
  if (4 <=? length t)%nat && splits_char 3 t then APanic
  else match t with
       | b :: t' =>
           if byte_eq_dec b x28 then abind (float_of t') (fun x => AOk (Excluded x))
           else abind (float_of t) (fun x => AOk (Included x))
       | [] => abind (float_of t) (fun x => AOk (Included x))
       end.
(** RangeCmdOrder::parse_lex_bound (options/range_cmd_order.rs:39-51) *)
Definition lex_bound (t : bytes) : attempt (bound bytes) :=
  match t with
  | [] => AErr SBound
  | b :: t' =>
      if splits_char 1 t then APanic
      else if byte_eq_dec b x2d then AOk Unbounded
      else if byte_eq_dec b x2b then AOk Unbounded
      else if byte_eq_dec b x28 then AOk (Excluded t')
      else AOk (Included t')
  end.
(** Both bounds, [min] first. *)
Definition two {A} (f : bytes -> attempt A) (lo hi : bytes) : attempt (A * A) :=
  abind (f lo) (fun a => abind (f hi) (fun b => AOk (a, b))).
(** [if rev { (max, min) } else { (min, max) }] (cmd/sorted_set/zrange.rs:31, 42) *)
Definition ordered {A} (rv : bool) (r : A * A) : A * A := if rv then (snd r, fst r) else r.

(** ** The database commands a request issues, in order.  [t] is the instant the request reads from the clock. *)
(** u64 addition and multiplication in release mode: cmd/base/set.rs:40-47. *)
Definition add_u64 (a b : N) : N := wrap_u64 (a + b).
(** cmd/base/set.rs:40-47 *)
Definition mul_u64 (a b : N) : N := wrap_u64 (a * b).

(** cmd/base/set.rs:40-47 *)
Definition set_expires_at (t : N) (e : set_expires) : expires_at :=
  match e with
  | ExEx n => Specific (add_u64 t (mul_u64 n 1000))
  | ExPx n => Specific (add_u64 t n)
  | ExExat n => Specific (mul_u64 n 1000)
  | ExPxat n => Specific n
  | ExKeepttl => Last
  | ExNone => Specific 0
  end.
(** cmd/others/restore.rs:26-46 *)
Definition restore_request (t : N) (k : bytes) (ttl : N) (v : bytes) (o : restore_opts) : restore_req :=
  RestoreReq k v
    (if re_absttl o then ttl else if (0 <? ttl)%N then add_u64 t ttl else 0%N)
    (re_replace o)
    (sub_u64 (t / 1000) (match re_idle o with Some i => i | None => 0%N end))
    (match re_freq o with Some i => i | None => 0%N end).

(** What a request does: database commands, or flushall (cmd/others/flushall.rs). *)
Inductive plan := PCmds (cs : list cmd) | PFlush.

(** The first half of the [apply] methods of server/src/cmd/*/*.rs, by command; dispatch: server/src/cmd/mod.rs:242-313. *)
Definition plan_of (t : N) (q : request) : attempt plan :=
  match q with
  | QPing | QUnknown _ _ | QSyncsnapshot _ | QInfo => AOk (PCmds [])
  (* cmd/base *)
  | QDecr k => AOk (PCmds [CWrite (WIncr k (-1))])
  | QDecrby k n => AOk (PCmds [CWrite (WIncr k (wrap_i64 (- n)))])
  | QDel ks => AOk (PCmds (map (fun k => CWrite (WDel k)) ks))
  | QExists ks => AOk (PCmds (map (fun k => CRead (RExists k)) ks))
  | QExpire k n o => AOk (PCmds [CWrite (WExpire k (add_u64 (mul_u64 n 1000) t) (eo_nx o) (eo_gl o))])
  | QExpireat k n o => AOk (PCmds [CWrite (WExpire k (mul_u64 n 1000) (eo_nx o) (eo_gl o))])
  | QGet k => AOk (PCmds [CRead (RGet k)])
  | QIncr k => AOk (PCmds [CWrite (WIncr k 1)])
  | QIncrby k n => AOk (PCmds [CWrite (WIncr k n)])
  | QPexpire k n o => AOk (PCmds [CWrite (WExpire k (add_u64 n t) (eo_nx o) (eo_gl o))])
  | QPexpireat k n o => AOk (PCmds [CWrite (WExpire k n (eo_nx o) (eo_gl o))])
  | QPsetex k n x => AOk (PCmds [CWrite (WSet k x (Specific (add_u64 t n)) NxXx_None)])
  | QSet k x o => AOk (PCmds [CWrite (WSet k x (set_expires_at t (so_expires o)) (so_nx o))])
  | QSetex k n x => AOk (PCmds [CWrite (WSet k x (Specific (add_u64 t (mul_u64 n 1000))) NxXx_None)])
  | QPttl k | QTtl k => AOk (PCmds [CRead (RTtl k)])
  (* cmd/hash *)
  | QHdel k fs => AOk (PCmds [CWrite (WKvpDel k fs)])
  | QHexists k f => AOk (PCmds [CRead (RKvpExists k f)])
  | QHget k f => AOk (PCmds [CRead (RKvpGet k [f])])
  | QHgetall k => AOk (PCmds [CRead (RKvpGetAll k)])
  | QHincrby k f n => AOk (PCmds [CWrite (WKvpIncr k f n)])
  | QHmget k fs => AOk (PCmds [CRead (RKvpGet k fs)])
  | QHset k es => AOk (PCmds [CWrite (WKvpSet k es NxXx_None)])
  | QHsetnx k f x => AOk (PCmds [CWrite (WKvpSet k [(f, x)] NxXx_Nx)])
  (* cmd/list *)
  | QLlen k => AOk (PCmds [CRead (RDequeLen k)])
  | QLpop k n => AOk (PCmds [CWrite (WDequePop k n true)])
  | QRpop k n => AOk (PCmds [CWrite (WDequePop k n false)])
  | QLpush k xs => AOk (PCmds [CWrite (WDequePush k xs true NxXx_None)])
  | QRpush k xs => AOk (PCmds [CWrite (WDequePush k xs false NxXx_None)])
  | QLpushx k xs => AOk (PCmds [CWrite (WDequePush k xs true NxXx_Xx)])
  | QRpushx k xs => AOk (PCmds [CWrite (WDequePush k xs false NxXx_Xx)])
  | QLrange k a b => AOk (PCmds [CRead (RDequeRange k a b)])
  (* cmd/others *)
  | QConfig _ _ => AOk (PCmds [])
  | QDebug sub ps =>
      if bool_decide (sub = bs "object") then
        match ps with p :: _ => AOk (PCmds [CRead (RExists p)]) | [] => APanic end
      else AOk (PCmds [])
  | QDump k => AOk (PCmds [CRead (RDump k)])
  | QFlushall _ => AOk PFlush
  | QObject sub ps =>
      if bool_decide (sub = bs "IDLETIME") || bool_decide (sub = bs "idletime") then
        match ps with p :: _ => AOk (PCmds [CRead (RLastVisit p)]) | [] => AErr SNoIdle end
      else if bool_decide (sub = bs "FREQ") || bool_decide (sub = bs "freq") then
        match ps with p :: _ => AOk (PCmds [CRead (RVisitTimes p)]) | [] => AErr SNoFreq end
      else AOk (PCmds [])
  | QRestore k ttl v o => AOk (PCmds [CWrite (WRestore (restore_request t k ttl v o))])
  (* cmd/set *)
  | QSadd k ms => AOk (PCmds [CWrite (WSetAdd k ms)])
  | QSismember k m => AOk (PCmds [CRead (RSetExists k [m])])
  | QSmembers k => AOk (PCmds [CRead (RSetGetAll k)])
  | QSmismember k ms => AOk (PCmds [CRead (RSetExists k ms)])
  | QSrem k ms => AOk (PCmds [CWrite (WSetRemove k ms)])
  (* cmd/sorted_set *)
  | QZadd k o ns => AOk (PCmds [CWrite (WZAdd k (map (fun n => Node (fst n) (snd n)) ns) (zo_nx o) (zo_gl o) (zo_incr o))])
  | QZrange k lo hi o =>
      match ro_order o with
      | ByScore => abind (two float_bound lo hi) (fun r =>
          AOk (PCmds [CRead (RZRangeScore k (ordered (ro_rev o) r) (ro_limit o) (ro_rev o))]))
      | ByLex => abind (two lex_bound lo hi) (fun r =>
          AOk (PCmds [CRead (RZRangeLex k (ordered (ro_rev o) r) (ro_limit o) (ro_rev o))]))
      | ByRank => abind (two int_of lo hi) (fun r =>
          AOk (PCmds [CRead (RZRangeRank k (fst r) (snd r) (ro_limit o) (ro_rev o))]))
      end
  | QZrangebylex k lo hi lim => abind (two lex_bound lo hi) (fun r => AOk (PCmds [CRead (RZRangeLex k r lim false)]))
  | QZrangebyscore k lo hi _ lim => abind (two float_bound lo hi) (fun r => AOk (PCmds [CRead (RZRangeScore k r lim false)]))
  | QZrank k m => AOk (PCmds [CRead (RZRank k m false)])
  | QZrem k ms => AOk (PCmds [CWrite (WZRemove k ms)])
  | QZremrangebylex k lo hi => abind (two lex_bound lo hi) (fun r => AOk (PCmds [CWrite (WZRemLex k r false)]))
  | QZremrangebyrank k a b => AOk (PCmds [CWrite (WZRemRank k a b false)])
  | QZremrangebyscore k lo hi => abind (two float_bound lo hi) (fun r => AOk (PCmds [CWrite (WZRemScore k r false)]))
  | QZrevrange k lo hi _ => abind (two int_of lo hi) (fun r => AOk (PCmds [CRead (RZRangeRank k (fst r) (snd r) None true)]))
  | QZrevrangebylex k lo hi lim => abind (two lex_bound lo hi) (fun r => AOk (PCmds [CRead (RZRangeLex k (ordered true r) lim true)]))
  | QZrevrangebyscore k lo hi _ lim =>
      abind (two float_bound lo hi) (fun r => AOk (PCmds [CRead (RZRangeScore k (ordered true r) lim true)]))
  | QZrevrank k m => AOk (PCmds [CRead (RZRank k m true)])
  end.

(** ** Replies *)
(** data_type_to_frame (frame_parse.rs:13-22) *)
Definition scalar_frame (en : env) (s : scalar) : frame :=
  match s with
  | SString b => FSimple b
  | SBytes b => FBulk b
  | SInteger z => FInteger z
  | SFloat f => FSimple (e_fmt en f)
  | SNull => FNull
  | SKvp _ | SDeque _ | SSet _ | SZSet _ _ => FError (bs "type not support")
  end.
Definition data_frame (en : env) (x : data) : frame :=
  match x with DScalar s => scalar_frame en s | _ => FError (bs "type not support") end.
(** cmd/base/get.rs:27-39 *)
Definition get_frame (en : env) (x : data) : attempt frame :=
  match x with
  | DScalar SNull => AOk FNull
  | DScalar (SString b) => AOk (FSimple b)
  | DScalar (SBytes b) => AOk (FBulk b)
  | DScalar (SInteger z) => AOk (FSimple (show_Z z))
  | DScalar (SFloat f) => AOk (FSimple (e_fmt en f))
  | _ => AErr (SDict EWrongType)
  end.
(** cmd/sorted_set/zrange.rs:58-66 and its siblings *)
Definition nodes_frame (en : env) (scores : bool) (l : list node) : frame :=
  FArray (concat (map (fun n => FSimple (n_key n) :: (if scores then [FSimple (e_fmt en (n_score n))] else [])) l)).
(** [usize as i64], and [(a - b) as i64] on usize.  For instance cmd/list/llen.rs. *)
Definition len_frame (n : nat) : frame := FInteger (u64_as_i64 (N.of_nat n)).
(** For instance cmd/set/sadd.rs. *)
Definition diff_frame (a b : nat) : frame := FInteger (u64_as_i64 (sub_u64 (N.of_nat a) (N.of_nat b))).
(** [i64::from(bool)] *)
Definition bool_frame (b : bool) : frame := FInteger (if b then 1 else 0).
(** the counter of cmd/base/del.rs:18-29 and cmd/base/exists.rs:15-25 *)
Definition count_hits (rs : list resp) : Z :=
  fold_left (fun n r => match r with POptValue (Some _) | PBool true => wrap_i64 (n + 1) | _ => n end) rs 0%Z.
(** cmd/others/info.rs:12-21 *)
Definition info_text : bytes :=
  [LF] ++ bs "        # Fake data in `info` command" ++ CRLF ++ [LF] ++ bs "        # Server" ++ CRLF ++ [LF] ++
  bs "        redis_version:0.0.0" ++ CRLF ++ [LF] ++ bs "        redis_git_sha1:00000000" ++ CRLF ++ [LF] ++ bs "        ".

(** [{:?}] of a byte slice: decimal numbers separated by ", ": unknown.rs:33-38. *)
Fixpoint join (sep : bytes) (l : list bytes) : bytes :=
  match l with [] => [] | [x] => x | x :: l' => x ++ sep ++ join sep l' end.
Definition debug_bytes (b : bytes) : bytes := bs "[" ++ join (bs ", ") (map (fun c => show_N (Byte.to_N c)) b) ++ bs "]".
(** Display (and Debug) of a frame (frame.rs:43-83); an array prints all but its first element. *)
Fixpoint debug_frame (f : frame) : bytes :=
  match f with
  | FInteger z => show_Z z
  | FBulk b | FSimple b | FError b => if utf8_valid b then b else debug_bytes b
  | FNull => bs "(nil)"
  | FArray l => match l with [] => [] | _ :: l' => concat (map (fun x => bs " " ++ debug_frame x) l') end
  | FPing => bs "PING"
  | FPong => bs "PONG"
  | FNoRes => bs "NoRes"
  end.
(** cmd/base/unknown.rs:33-38 *)
Definition unknown_text (name : bytes) (params : list frame) : bytes :=
  bs "ERR unknown command '" ++ name ++ bs "', params: [" ++ join (bs ", ") (map debug_frame params) ++ bs "]".

(** The reply of a request to the responses of its commands; [t] is the instant read by OBJECT IDLETIME.
    Responses of another kind than the issued commands return do not occur (ServerFacts.answer_total).
    server/src/cmd/*/*.rs, the second half of [apply]. *)
Definition answer (en : env) (t : N) (q : request) (rs : list resp) : attempt frame :=
  match q, rs with
  | QPing, [] => AOk FPong
  | QUnknown n ps, [] => AOk (FError (unknown_text n ps))
  | QInfo, [] => AOk (FBulk info_text)
  (* cmd/base *)
  | QDecr _, [PInt z] | QDecrby _ _, [PInt z] | QIncr _, [PInt z] | QIncrby _ _, [PInt z] => AOk (FInteger z)
  | QDel _, _ | QExists _, _ => AOk (FInteger (count_hits rs))
  | QExpire _ _ _, [PBool b] | QExpireat _ _ _, [PBool b] | QPexpire _ _ _, [PBool b] | QPexpireat _ _ _, [PBool b] =>
      AOk (bool_frame b)
  | QGet _, [PData x] => get_frame en x
  | QPsetex _ _ _, [PData _] | QSetex _ _ _, [PData _] => AOk frame_ok
  | QSet _ _ o, [PData x] => AOk (if so_get o then data_frame en x else frame_ok)
  | QPttl _, [PTtl r] =>
      AOk (FInteger (match r with TtlNone => -1 | TtlNotExist => -2 | Ttl i => u64_as_i64 i end))
  | QTtl _, [PTtl r] =>
      AOk (FInteger (match r with TtlNone => -1 | TtlNotExist => -2 | Ttl i => u64_as_i64 (add_u64 i 500 / 1000) end))
  (* cmd/hash *)
  | QHdel _ _, [PLens l] => AOk (diff_frame (old_len l) (new_len l))
  | QHexists _ _, [PBool b] => AOk (bool_frame b)
  | QHget _ _, [PScalars (s :: _)] => AOk (scalar_frame en s)
  | QHgetall _, [PKvp m] =>
      AOk (FArray (concat (map (fun e => [FBulk (fst e); scalar_frame en (snd e)]) (e_ho en _ m))))
  | QHincrby _ _ _, [PInt z] => AOk (FInteger z)
  | QHmget _ _, [PScalars l] => AOk (FArray (map (scalar_frame en) l))
  | QHset _ _, [PLens l] | QHsetnx _ _ _, [PLens l] => AOk (diff_frame (new_len l) (old_len l))
  (* cmd/list *)
  | QLlen _, [PNat n] => AOk (len_frame n)
  | QLpop _ _, [PScalars l] | QRpop _ _, [PScalars l] | QLrange _ _ _, [PScalars l] => AOk (FArray (map (scalar_frame en) l))
  | QLpush _ _, [PLens l] | QRpush _ _, [PLens l] | QLpushx _ _, [PLens l] | QRpushx _ _, [PLens l] =>
      AOk (len_frame (new_len l))
  (* cmd/others *)
  | QConfig _ _, [] | QDebug _ _, [] | QObject _ _, [] => AOk frame_ok
  | QDebug _ _, [PBool b] => if b then AOk frame_ok else AErr SNoSuchKey
  | QDump _, [POptBytes o] => AOk (match o with Some b => FBulk b | None => FNull end)
  | QObject sub _, [POptN o] =>
      if bool_decide (sub = bs "IDLETIME") || bool_decide (sub = bs "idletime") then
        match o with Some u => AOk (FInteger (u64_as_i64 (sub_u64 (t / 1000) u))) | None => AErr SNoIdle end
      else match o with Some u => AOk (FInteger (u64_as_i64 u)) | None => AErr SNoFreq end
  | QRestore _ _ _ _, [PUnit] => AOk frame_ok
  (* cmd/set *)
  | QSadd _ _, [PLens l] => AOk (diff_frame (new_len l) (old_len l))
  | QSismember _ _, [PBools (b :: _)] => AOk (bool_frame b)
  | QSmembers _, [PSet s] => AOk (FArray (map FSimple (set_order (e_ho en) s)))
  | QSmismember _ _, [PBools l] => AOk (FArray (map bool_frame l))
  | QSrem _ _, [PLens l] => AOk (diff_frame (old_len l) (new_len l))
  (* cmd/sorted_set *)
  | QZadd _ o _, [PZadd r] => AOk (if zo_ch o then len_frame (za_new r) else diff_frame (za_new r) (za_old r))
  | QZrange _ _ _ o, [PNodes l] => AOk (nodes_frame en (ro_scores o) l)
  | QZrangebylex _ _ _ _, [PNodes l] | QZrevrangebylex _ _ _ _, [PNodes l] => AOk (nodes_frame en false l)
  | QZrangebyscore _ _ _ sc _, [PNodes l] | QZrevrangebyscore _ _ _ sc _, [PNodes l] | QZrevrange _ _ _ sc, [PNodes l] =>
      AOk (nodes_frame en sc l)
  | QZrank _ _, [POptNat o] | QZrevrank _ _, [POptNat o] =>
      AOk (match o with Some n => len_frame n | None => FNull end)
  | QZrem _ _, [PLens l] => AOk (diff_frame (old_len l) (new_len l))
  | QZremrangebylex _ _ _, [PNodes l] | QZremrangebyrank _ _ _, [PNodes l] | QZremrangebyscore _ _ _, [PNodes l] =>
      AOk (len_frame (length l))
  | _, _ => APanic
  end.

(** ** Execution *)
(** One command with everything it emits. db/src/lib.rs:100-297. *)
Definition db_exec (ho : horder) (now : N) (c : cmd) (b : db) : db * wout :=
  match c with
  | CWrite w => db_write now w b
  | CRead r => let '(b', o) := db_read ho now r b in (b', WOut o [] [])
  end.

(** The state and the messages to the background tasks. db/src/lib.rs:26-37. *)
Record effects := Effects { ef_db : db; ef_exp : list exp_msg; ef_fwd : list fwd_msg }.

(** What happens on the other connections: [others i] is the effect of everything the rest of the server does
    before step number [i]. server/src/lib.rs:163: every connection is its own task. *)
Definition others := nat -> effects -> effects.
(** Nobody else is connected. See [others]. *)
Definition alone : others := fun _ e => e.

(** The commands of a request one after the other ([db.xxx(cmd)?]); command number [i] executes at [clock i],
    after [oth i]. For instance cmd/base/del.rs:18-29. *)
Fixpoint run_cmds (ho : horder) (clock : nat -> N) (oth : others) (cs : list cmd) (e : effects)
  : effects * attempt (list resp) :=
  match cs with
  | [] => (e, AOk [])
  | c :: cs' =>
      let e := oth 0%nat e in
      let '(b', o) := db_exec ho (clock 0%nat) c (ef_db e) in
      let e' := Effects b' (ef_exp e ++ wo_exp o) (ef_fwd e ++ wo_fwd o) in
      match wo_res o with
      | OOk r =>
          let '(e2, rs) := run_cmds ho (fun i => clock (S i)) (fun i => oth (S i)) cs' e' in
          (e2, abind rs (fun l => AOk (r :: l)))
      | OErr x => (e', AErr (SDict x))
      | OPanic => (e', APanic)
      end
  end.

(** How a connection ends: [return Ok(())], [Err] (the error is logged), a panic of the task, or it is handed
    over to the snapshot sender. server/src/lib.rs:163-168, 220-241. *)
Inductive hend := HClean | HError | HPanic | HSnapshot (slot : N).
Global Instance hend_eq_dec : EqDecision hend. Proof. solve_decision. Defined.

(** the payload whose rejection an error text may mention: cmd/others/restore.rs. *)
Definition payload_of (q : request) : bytes := match q with QRestore _ _ v _ => v | _ => [] end.

(** component/server/src/lib.rs:233-253: one request.  [clock 0] is the instant read by the request itself,
    the commands follow. *)
Definition serve_request (en : env) (clock : nat -> N) (oth : others) (q : request) (e : effects) : effects * (frame + hend) :=
  match q with
  | QSyncsnapshot s => (e, inr (HSnapshot s))
  | _ =>
      let fail x := inl (FError (err_text en (payload_of q) x)) in
      match plan_of (clock 0%nat) q with
      | AErr x => (e, fail x)
      | APanic => (e, inr HPanic)
      | AOk PFlush => (Effects (db_flushall (ef_db e)) (ef_exp e) (ef_fwd e), inl frame_ok)
      | AOk (PCmds cs) =>
          let '(e', rs) := run_cmds (e_ho en) (fun i => clock (S i)) oth cs e in
          (e', match abind rs (answer en (clock (S (length cs))) q) with
               | AOk f => inl f
               | AErr x => fail x
               | APanic => inr HPanic
               end)
      end
  end.

(** component/server/src/lib.rs:225-231: a frame that is no request ends the connection. *)
Definition serve_frame (en : env) (clock : nat -> N) (oth : others) (f : frame) (e : effects) : effects * (frame + hend) :=
  match from_frame f with
  | None => (e, inr HError)
  | Some q => serve_request en clock oth q e
  end.

(** component/server/src/lib.rs:218-257 (Handler::run): read a frame, execute it, write the reply, repeat.
    [clock i] and [oth i] are the clock and the other connections during request number [i].  Writing to the
    socket always succeeds here; a failing write ends the connection like [HError]. *)
Fixpoint handler (fuel : nat) (en : env) (clock : nat -> nat -> N) (oth : nat -> others) (chunks : list bytes) (buf : bytes)
  (e : effects) : effects * list frame * hend :=
  match fuel with
  | O => (e, [], HError)
  | S fuel' =>
      match read_frame chunks buf with
      | inr EndClean => (e, [], HClean)
      | inr _ => (e, [], HError)
      | inl (f, buf', cs) =>
          match serve_frame en (clock 0%nat) (oth 0%nat) f e with
          | (e', inr h) => (e', [], h)
          | (e', inl r) =>
              let '(e2, rs, h) := handler fuel' en (fun i => clock (S i)) (fun i => oth (S i)) cs buf' e' in (e2, r :: rs, h)
          end
      end
  end.
(** A whole connection; its output is [concat (map write replies)]. server/src/lib.rs:163-168. *)
Definition connection (en : env) (clock : nat -> nat -> N) (oth : nat -> others) (chunks : list bytes) (e : effects)
  : effects * list frame * hend :=
  handler (S (length (concat chunks))) en clock oth chunks [] e.
