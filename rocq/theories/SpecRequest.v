(** What requests look like, independently of the parser: case-insensitive words, numbers, option lists, arities. *)
From Verif Require Export Request.

(** Two letters that differ at most in ASCII case. *)
Definition same_letter (x y : byte) : Prop :=
  x = y \/
  (65 <= Byte.to_N x <= 90 /\ Byte.to_N y = Byte.to_N x + 32)%N \/
  (65 <= Byte.to_N y <= 90 /\ Byte.to_N x = Byte.to_N y + 32)%N.
(** Two texts that differ at most in ASCII case. *)
Definition same_text (s t : bytes) : Prop := Forall2 same_letter s t.

(** A text that spells the word [w]: letters in any case, and the Kelvin sign (U+212A) for a "k". *)
Inductive same_word : bytes -> bytes -> Prop :=
  | sw_end : same_word [] []
  | sw_letter x y b w : same_letter x y -> same_word b w -> same_word (x :: b) (y :: w)
  | sw_kelvin b w : same_word b w -> same_word (xe2 :: x84 :: xaa :: b) (x6b :: w).
(** A frame spelling the word [w]. *)
Definition is_word (w : bytes) (f : frame) : Prop := exists b, (f = FBulk b \/ f = FSimple b) /\ same_word b w.
(** A frame denoting the number [z]. *)
Definition is_number (z : Z) (f : frame) : Prop := f = FInteger z \/ f = FBulk (show_Z z) \/ f = FSimple (show_Z z).
(** A frame carrying the text [b]. *)
Definition is_text (b : bytes) (f : frame) : Prop := f = FBulk b \/ f = FSimple b.

(** ** Options, each with the frames that spell it *)
Inductive sopt := OEx (n : N) | OPx (n : N) | OExat (n : N) | OPxat (n : N) | OKeepttl | ONx | OXx | OGet.
Global Instance sopt_eq_dec : EqDecision sopt. Proof. solve_decision. Defined.

Inductive spells : sopt -> list frame -> Prop :=
  | sp_ex n f g : is_word (bs "ex") f -> is_number (Z.of_N n) g -> (n < 2 ^ 63)%N -> spells (OEx n) [f; g]
  | sp_px n f g : is_word (bs "px") f -> is_number (Z.of_N n) g -> (n < 2 ^ 63)%N -> spells (OPx n) [f; g]
  | sp_exat n f g : is_word (bs "exat") f -> is_number (Z.of_N n) g -> (n < 2 ^ 63)%N -> spells (OExat n) [f; g]
  | sp_pxat n f g : is_word (bs "pxat") f -> is_number (Z.of_N n) g -> (n < 2 ^ 63)%N -> spells (OPxat n) [f; g]
  | sp_keepttl f : is_word (bs "keepttl") f -> spells OKeepttl [f]
  | sp_nx f : is_word (bs "nx") f -> spells ONx [f]
  | sp_xx f : is_word (bs "xx") f -> spells OXx [f]
  | sp_get f : is_word (bs "get") f -> spells OGet [f].

Definition expires_of (o : sopt) : option set_expires :=
  match o with
  | OEx n => Some (ExEx n) | OPx n => Some (ExPx n) | OExat n => Some (ExExat n) | OPxat n => Some (ExPxat n)
  | OKeepttl => Some ExKeepttl | _ => None
  end.
Definition nx_of (o : sopt) : option nx_xx := match o with ONx => Some NxXx_Nx | OXx => Some NxXx_Xx | _ => None end.
(** The last option of a kind wins. *)
Fixpoint last_some {A B} (f : A -> option B) (d : B) (l : list A) : B :=
  match l with
  | [] => d
  | a :: l' => last_some f (match f a with Some b => b | None => d end) l'
  end.
Definition set_meaning (os : list sopt) : set_opts :=
  SetOpts (last_some expires_of ExNone os) (last_some nx_of NxXx_None os) (bool_decide (OGet ∈ os)).

(** Two options contradict each other when they set the same thing. *)
Definition conflict (a b : sopt) : Prop :=
  (is_Some (expires_of a) /\ is_Some (expires_of b)) \/ (is_Some (nx_of a) /\ is_Some (nx_of b)).

(** EXPIRE and friends *)
Inductive eopt := ENx | EXx | EGt | ELt.
Inductive espells : eopt -> list frame -> Prop :=
  | es_nx f : is_word (bs "nx") f -> espells ENx [f]
  | es_xx f : is_word (bs "xx") f -> espells EXx [f]
  | es_gt f : is_word (bs "gt") f -> espells EGt [f]
  | es_lt f : is_word (bs "lt") f -> espells ELt [f].
Definition enx_of (o : eopt) : option nx_xx := match o with ENx => Some NxXx_Nx | EXx => Some NxXx_Xx | _ => None end.
Definition egl_of (o : eopt) : option gt_lt := match o with EGt => Some GtLt_Gt | ELt => Some GtLt_Lt | _ => None end.

(** ZRANGE *)
Inductive ropt := RByscore | RBylex | RRev | RLimit (a b : Z) | RWithscores.
Global Instance ropt_eq_dec : EqDecision ropt. Proof. solve_decision. Defined.
Inductive rspells : ropt -> list frame -> Prop :=
  | rs_byscore f : is_word (bs "byscore") f -> rspells RByscore [f]
  | rs_bylex f : is_word (bs "bylex") f -> rspells RBylex [f]
  | rs_rev f : is_word (bs "rev") f -> rspells RRev [f]
  | rs_limit a b f g h : is_word (bs "limit") f -> is_number a g -> is_number b h ->
      (- 2 ^ 63 <= a < 2 ^ 63)%Z -> (- 2 ^ 63 <= b < 2 ^ 63)%Z -> rspells (RLimit a b) [f; g; h]
  | rs_scores f : is_word (bs "withscores") f -> rspells RWithscores [f].
Definition order_of (o : ropt) : option range_order := match o with RByscore => Some ByScore | RBylex => Some ByLex | _ => None end.
Definition limit_of (o : ropt) : option limit := match o with RLimit a b => Some (Some (a, b)) | _ => None end.

(** ** Arities: least and largest number of arguments after the command name ([None] = no bound). *)
Definition arity : list (bytes * (nat * option nat)) :=
  [ (bs "ping", (0, Some 0)); (bs "info", (0, Some 0)); (bs "flushall", (0, None)); (bs "syncsnapshot", (1, Some 1));
    (bs "get", (1, Some 1)); (bs "incr", (1, Some 1)); (bs "decr", (1, Some 1)); (bs "ttl", (1, Some 1));
    (bs "pttl", (1, Some 1)); (bs "dump", (1, Some 1)); (bs "hgetall", (1, Some 1)); (bs "llen", (1, Some 1));
    (bs "smembers", (1, Some 1));
    (bs "lpop", (1, Some 2)); (bs "rpop", (1, Some 2));
    (bs "del", (1, None)); (bs "exists", (1, None));
    (bs "incrby", (2, Some 2)); (bs "decrby", (2, Some 2)); (bs "hexists", (2, Some 2)); (bs "hget", (2, Some 2));
    (bs "sismember", (2, Some 2)); (bs "zrank", (2, Some 2)); (bs "zrevrank", (2, Some 2));
    (bs "sadd", (2, None)); (bs "srem", (2, None)); (bs "smismember", (2, None)); (bs "hdel", (2, None));
    (bs "hmget", (2, None)); (bs "zrem", (2, None)); (bs "lpush", (2, None)); (bs "rpush", (2, None));
    (bs "lpushx", (2, None)); (bs "rpushx", (2, None)); (bs "debug", (2, None)); (bs "config", (2, None));
    (bs "object", (2, None));
    (bs "set", (2, None)); (bs "expire", (2, None)); (bs "expireat", (2, None)); (bs "pexpire", (2, None));
    (bs "pexpireat", (2, None));
    (bs "setex", (3, Some 3)); (bs "psetex", (3, Some 3)); (bs "hsetnx", (3, Some 3)); (bs "hincrby", (3, Some 3));
    (bs "lrange", (3, Some 3)); (bs "zremrangebyrank", (3, Some 3)); (bs "zremrangebyscore", (3, Some 3));
    (bs "zremrangebylex", (3, Some 3));
    (bs "hset", (3, None)); (bs "zadd", (3, None)); (bs "restore", (3, None)); (bs "zrange", (3, None));
    (bs "zrangebyscore", (3, None)); (bs "zrangebylex", (3, None)); (bs "zrevrange", (3, None));
    (bs "zrevrangebyscore", (3, None)); (bs "zrevrangebylex", (3, None)) ]%nat.

(** The frames of one SET option, whatever number it carries. *)
Definition set_option_shape (fs : list frame) : Prop :=
  (exists f g w, fs = [f; g] /\ is_word w f /\ w ∈ [bs "ex"; bs "px"; bs "exat"; bs "pxat"]) \/
  (exists f w, fs = [f] /\ is_word w f /\ w ∈ [bs "keepttl"; bs "nx"; bs "xx"; bs "get"]).
