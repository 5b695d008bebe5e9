(** The project's own black-box tests (cmd_test/tests), run through the byte-level model of the server.
    These are tests of the model, not proofs: they check that the model answers what the project's authors
    expect the program to answer. Transcribed mechanically; one [Example] per test function. *)
From Verif Require Import PropServer.

(** A test script: the client sends a request, waits, or reads a reply and compares it. *)
Inductive tstep :=
  | Send (ws : list bytes)             (** [write_cmd], [write_cmd_bytes]: cmd_test/src/lib.rs:16-29 *)
  | Wait (ms : N)                      (** [sleep] *)
  | Expect (f : frame)                 (** [next_frame_eq]: cmd_test/src/lib.rs:31-34 *)
  | ExpectSorted (fs : list frame).    (** [next_array_frame_sorted_eq]: cmd_test/src/lib.rs:36-45 *)

(** Equality of frames. *)
Fixpoint frame_eqb (f g : frame) : bool :=
  match f, g with
  | FPing, FPing | FPong, FPong | FNull, FNull | FNoRes, FNoRes => true
  | FSimple a, FSimple b | FBulk a, FBulk b | FError a, FError b => bool_decide (a = b)
  | FInteger a, FInteger b => (a =? b)%Z
  | FArray l, FArray l' =>
      (fix go (l l' : list frame) : bool :=
         match l, l' with [], [] => true | x :: l, y :: l' => frame_eqb x y && go l l' | _, _ => false end) l l'
  | _, _ => false
  end.
(** Equality up to the order. *)
Fixpoint take_frame (f : frame) (l : list frame) : option (list frame) :=
  match l with
  | [] => None
  | g :: l' => if frame_eqb f g then Some l' else cons g <$> take_frame f l'
  end.
Fixpoint same_frames (l l' : list frame) : bool :=
  match l with
  | [] => match l' with [] => true | _ => false end
  | f :: l => match take_frame f l' with Some l' => same_frames l l' | None => false end
  end.

(** The requests, each with the time at which it is sent: the tests start in November 2021 and a request takes 1 ms. *)
Fixpoint sent (t : N) (s : list tstep) : list (N * list bytes) :=
  match s with
  | [] => []
  | Send ws :: s => (t, ws) :: sent (t + 1) s
  | Wait ms :: s => sent (t + ms) s
  | _ :: s => sent t s
  end.
(** The replies read must be the expected ones; a test may leave the last replies unread. *)
Fixpoint met (s : list tstep) (rs : list frame) : bool :=
  match s, rs with
  | [], _ => true
  | Expect f :: s, r :: rs => frame_eqb f r && met s rs
  | ExpectSorted fs :: s, FArray l :: rs => same_frames fs l && met s rs
  | (Send _ | Wait _) :: s, rs => met s rs
  | _, _ => false
  end.
(** Text of the scores that the tests use; [f64::to_string] is a parameter of the model. *)
Definition suite_fmt (x : f64) : bytes :=
  if f64_eq x (f64_of_Z 1) then bs "1" else if f64_eq x (f64_of_Z 2) then bs "2"
  else if f64_eq x (f64_of_Z 3) then bs "3" else bs "0".
Definition suite_env : env := Env horder_default suite_fmt (fun _ => bs "bad payload").
(** Send everything, read the reply bytes back with the frame reader, compare. *)
Definition passes (s : list tstep) : bool :=
  let reqs := sent 1637000000000 s in
  let clock i j := match reqs !! i with Some p => p.1 | None => 0%N end in
  let '(_, rs, h) := connection suite_env clock (fun _ => alone) [concat (map (fun p => write (req p.2)) reqs)] ex_start in
  let '(fs, _) := conn_requests [concat (map write rs)] in
  (length rs =? length reqs)%nat && (length fs =? length rs)%nat && met s fs.

(** ** cmd_test/tests/base_cmd.rs *)

(** Lines 10-53. *)
Example suite_base_decr : passes
  [Send [bs "GET"; bs "decr_{tes}t"];
   Expect (FNull);
   Send [bs "GET"; bs "decr_test"];
   Expect (FNull);
   Send [bs "DECR"; bs "decr_test"];
   Expect (FInteger (-1));
   Send [bs "GET"; bs "decr_test"];
   Expect (FSimple (bs "-1"));
   Send [bs "SET"; bs "mykey"; bs "10"];
   Expect (FSimple (bs "OK"));
   Send [bs "DECR"; bs "mykey"];
   Expect (FInteger (9));
   Send [bs "SET"; bs "mykey"; bs "234293482390480948029348230948"];
   Expect (FSimple (bs "OK"));
   Send [bs "DECR"; bs "mykey"];
   Expect (FError (bs "value is not an integer or out of range"));
   Send [bs "DECR"; bs "mykey"];
   Expect (FError (bs "value is not an integer or out of range"))] = true.
Proof. vm_compute. reflexivity. Qed.

(** Lines 56-64. *)
Example suite_base_decrby : passes
  [Send [bs "SET"; bs "mykey"; bs "10"];
   Expect (FSimple (bs "OK"));
   Send [bs "DECRBY"; bs "mykey"; bs "3"];
   Expect (FInteger (7))] = true.
Proof. vm_compute. reflexivity. Qed.

(** Lines 67-78. *)
Example suite_base_del : passes
  [Send [bs "SET"; bs "key1"; bs "Hello"];
   Expect (FSimple (bs "OK"));
   Send [bs "SET"; bs "key2"; bs "World"];
   Expect (FSimple (bs "OK"));
   Send [bs "DEL"; bs "key1"; bs "key2"; bs "key3"];
   Expect (FInteger (2))] = true.
Proof. vm_compute. reflexivity. Qed.

(** Lines 81-102. *)
Example suite_base_exists : passes
  [Send [bs "SET"; bs "key1"; bs "Hello"];
   Expect (FSimple (bs "OK"));
   Send [bs "EXISTS"; bs "key1"];
   Expect (FInteger (1));
   Send [bs "EXISTS"; bs "nosuchkey"];
   Expect (FInteger (0));
   Send [bs "SET"; bs "key2"; bs "World"];
   Expect (FSimple (bs "OK"));
   Send [bs "EXISTS"; bs "key1"; bs "key2"; bs "nosuchkey"];
   Expect (FInteger (2))] = true.
Proof. vm_compute. reflexivity. Qed.

(** Lines 105-134. *)
Example suite_base_expire : passes
  [Send [bs "SET"; bs "mykey"; bs "Hello"];
   Expect (FSimple (bs "OK"));
   Send [bs "EXPIRE"; bs "mykey"; bs "10"];
   Expect (FInteger (1));
   Send [bs "TTL"; bs "mykey"];
   Expect (FInteger (10));
   Send [bs "SET"; bs "mykey"; bs "Hello World"];
   Expect (FSimple (bs "OK"));
   Send [bs "TTL"; bs "mykey"];
   Expect (FInteger (-1));
   Send [bs "EXPIRE"; bs "mykey"; bs "10"; bs "XX"];
   Expect (FInteger (0));
   Send [bs "TTL"; bs "mykey"];
   Expect (FInteger (-1));
   Send [bs "EXPIRE"; bs "mykey"; bs "10"; bs "NX"];
   Expect (FInteger (1));
   Send [bs "TTL"; bs "mykey"];
   Expect (FInteger (10))] = true.
Proof. vm_compute. reflexivity. Qed.

(** Lines 137-155. *)
Example suite_base_expireat : passes
  [Send [bs "SET"; bs "mykey"; bs "Hello"];
   Expect (FSimple (bs "OK"));
   Send [bs "EXISTS"; bs "mykey"];
   Expect (FInteger (1));
   Send [bs "EXPIREAT"; bs "mykey"; bs "1293840000"];
   Expect (FInteger (1));
   Send [bs "EXISTS"; bs "mykey"];
   Expect (FInteger (0))] = true.
Proof. vm_compute. reflexivity. Qed.

(** Lines 158-169. *)
Example suite_base_get : passes
  [Send [bs "GET"; bs "nonexisting"];
   Expect (FNull);
   Send [bs "SET"; bs "mykey"; bs "Hello"];
   Expect (FSimple (bs "OK"));
   Send [bs "GET"; bs "mykey"];
   Expect (FBulk (bs "Hello"))] = true.
Proof. vm_compute. reflexivity. Qed.

(** Lines 172-183. *)
Example suite_base_incr : passes
  [Send [bs "SET"; bs "mykey"; bs "10"];
   Expect (FSimple (bs "OK"));
   Send [bs "INCR"; bs "mykey"];
   Expect (FInteger (11));
   Send [bs "GET"; bs "mykey"];
   Expect (FSimple (bs "11"))] = true.
Proof. vm_compute. reflexivity. Qed.

(** Lines 186-194. *)
Example suite_base_incr_by : passes
  [Send [bs "SET"; bs "mykey"; bs "10"];
   Expect (FSimple (bs "OK"));
   Send [bs "INCRBY"; bs "mykey"; bs "5"];
   Expect (FInteger (15))] = true.
Proof. vm_compute. reflexivity. Qed.

(** Lines 196-232. *)
Example suite_base_pexpire : passes
  [Send [bs "SET"; bs "mykey"; bs "Hello"];
   Expect (FSimple (bs "OK"));
   Send [bs "PEXPIRE"; bs "mykey"; bs "1500"];
   Expect (FInteger (1));
   Wait 1;
   Send [bs "TTL"; bs "mykey"];
   Expect (FInteger (1));
   Send [bs "PEXPIRE"; bs "mykey"; bs "1000"; bs "XX"];
   Expect (FInteger (1));
   Send [bs "TTL"; bs "mykey"];
   Expect (FInteger (1));
   Send [bs "EXPIRE"; bs "mykey"; bs "1000"; bs "NX"];
   Expect (FInteger (0));
   Send [bs "TTL"; bs "mykey"];
   Expect (FInteger (1))] = true.
Proof. vm_compute. reflexivity. Qed.

(** Lines 235-253. *)
Example suite_base_pexpireat : passes
  [Send [bs "SET"; bs "mykey"; bs "Hello"];
   Expect (FSimple (bs "OK"));
   Send [bs "PEXPIREAT"; bs "mykey"; bs "1555555555005"];
   Expect (FInteger (1));
   Send [bs "TTL"; bs "mykey"];
   Expect (FInteger (-2));
   Send [bs "PTTL"; bs "mykey"];
   Expect (FInteger (-2))] = true.
Proof. vm_compute. reflexivity. Qed.

(** Lines 256-276. *)
Example suite_base_psetex : passes
  [Send [bs "PSETEX"; bs "mykey"; bs "90"; bs "Hello"];
   Expect (FSimple (bs "OK"));
   Send [bs "GET"; bs "mykey"];
   Expect (FBulk (bs "Hello"));
   Wait 100;
   Send [bs "GET"; bs "mykey"];
   Expect (FNull)] = true.
Proof. vm_compute. reflexivity. Qed.

(** Lines 279-294. *)
Example suite_base_set : passes
  [Send [bs "SET"; bs "mykey"; bs "Hello"];
   Expect (FSimple (bs "OK"));
   Send [bs "GET"; bs "mykey"];
   Expect (FBulk (bs "Hello"));
   Send [bs "SET"; bs "anotherkey"; bs "will expire in a minute"; bs "EX"; bs "60"];
   Expect (FSimple (bs "OK"))] = true.
Proof. vm_compute. reflexivity. Qed.

(** Lines 297-312. *)
Example suite_base_setex : passes
  [Send [bs "SETEX"; bs "mykey"; bs "90"; bs "Hello"];
   Expect (FSimple (bs "OK"));
   Send [bs "TTL"; bs "mykey"];
   Expect (FInteger (90));
   Send [bs "GET"; bs "mykey"];
   Expect (FBulk (bs "Hello"))] = true.
Proof. vm_compute. reflexivity. Qed.

(** ** cmd_test/tests/hash_cmd.rs *)

(** Lines 7-22. *)
Example suite_hash_hdel : passes
  [Send [bs "HSET"; bs "myhash"; bs "field1"; bs "foo"];
   Expect (FInteger (1));
   Send [bs "HDEL"; bs "myhash"; bs "field1"];
   Expect (FInteger (1));
   Send [bs "HDEL"; bs "myhash"; bs "field2"];
   Expect (FInteger (0))] = true.
Proof. vm_compute. reflexivity. Qed.

(** Lines 25-40. *)
Example suite_hash_hexists : passes
  [Send [bs "HSET"; bs "myhash"; bs "field1"; bs "foo"];
   Expect (FInteger (1));
   Send [bs "HEXISTS"; bs "myhash"; bs "field1"];
   Expect (FInteger (1));
   Send [bs "HEXISTS"; bs "myhash"; bs "field2"];
   Expect (FInteger (0))] = true.
Proof. vm_compute. reflexivity. Qed.

(** Lines 43-58. *)
Example suite_hash_hget : passes
  [Send [bs "HSET"; bs "myhash"; bs "field1"; bs "foo"];
   Expect (FInteger (1));
   Send [bs "HGET"; bs "myhash"; bs "field1"];
   Expect (FBulk (bs "foo"));
   Send [bs "HGET"; bs "myhash"; bs "field2"];
   Expect (FNull)] = true.
Proof. vm_compute. reflexivity. Qed.

(** Lines 61-86. *)
Example suite_hash_hgetll : passes
  [Send [bs "HSET"; bs "myhash"; bs "field1"; bs "Hello"];
   Expect (FInteger (1));
   Send [bs "HSET"; bs "myhash"; bs "field2"; bs "World"];
   Expect (FInteger (1));
   Send [bs "HGETALL"; bs "myhash"];
   ExpectSorted [FBulk (bs "field1"); FBulk (bs "Hello"); FBulk (bs "field2"); FBulk (bs "World")]] = true.
Proof. vm_compute. reflexivity. Qed.

(** Lines 89-115. *)
Example suite_hash_hincrby : passes
  [Send [bs "HSET"; bs "myhash"; bs "field"; bs "5"];
   Expect (FInteger (1));
   Send [bs "HINCRBY"; bs "myhash"; bs "field"; bs "1"];
   Expect (FInteger (6));
   Send [bs "HINCRBY"; bs "myhash"; bs "field"; bs "-1"];
   Expect (FInteger (5));
   Send [bs "HINCRBY"; bs "myhash"; bs "field"; bs "-10"];
   Expect (FInteger (-5))] = true.
Proof. vm_compute. reflexivity. Qed.

(** Lines 118-146. *)
Example suite_hash_hmget : passes
  [Send [bs "HSET"; bs "myhash"; bs "field1"; bs "Hello"];
   Expect (FInteger (1));
   Send [bs "HSET"; bs "myhash"; bs "field2"; bs "World"];
   Expect (FInteger (1));
   Send [bs "HMGET"; bs "myhash"; bs "field1"; bs "field2"; bs "field3"];
   Expect (FArray [FBulk (bs "Hello"); FBulk (bs "World"); FNull])] = true.
Proof. vm_compute. reflexivity. Qed.

(** Lines 149-161. *)
Example suite_hash_hset : passes
  [Send [bs "HSET"; bs "myhash"; bs "field1"; bs "Hello"];
   Expect (FInteger (1));
   Send [bs "HGET"; bs "myhash"; bs "field1"];
   Expect (FBulk (bs "Hello"))] = true.
Proof. vm_compute. reflexivity. Qed.

(** Lines 164-183. *)
Example suite_hash_hsetnx : passes
  [Send [bs "hsetnx"; bs "myhash"; bs "field"; bs "Hello"];
   Expect (FInteger (1));
   Send [bs "hsetnx"; bs "myhash"; bs "field"; bs "World"];
   Expect (FInteger (0));
   Send [bs "HGET"; bs "myhash"; bs "field"];
   Expect (FBulk (bs "Hello"))] = true.
Proof. vm_compute. reflexivity. Qed.

(** ** cmd_test/tests/list_cmd.rs *)

(** Lines 7-18. *)
Example suite_list_llen : passes
  [Send [bs "LPUSH"; bs "mylist"; bs "World"];
   Expect (FInteger (1));
   Send [bs "LPUSH"; bs "mylist"; bs "Hello"];
   Expect (FInteger (2));
   Send [bs "LLEN"; bs "mylist"];
   Expect (FInteger (2))] = true.
Proof. vm_compute. reflexivity. Qed.

(** Lines 21-57. *)
Example suite_list_lpop : passes
  [Send [bs "RPUSH"; bs "mylist"; bs "one"; bs "two"; bs "three"; bs "four"; bs "five"];
   Expect (FInteger (5));
   Send [bs "LPOP"; bs "mylist"];
   Expect (FArray [FBulk (bs "one")]);
   Send [bs "LPOP"; bs "mylist"; bs "2"];
   Expect (FArray [FBulk (bs "two"); FBulk (bs "three")]);
   Send [bs "LRANGE"; bs "mylist"; bs "0"; bs "-1"];
   Expect (FArray [FBulk (bs "four"); FBulk (bs "five")])] = true.
Proof. vm_compute. reflexivity. Qed.

(** Lines 60-77. *)
Example suite_list_lpush : passes
  [Send [bs "LPUSH"; bs "mylist"; bs "world"];
   Expect (FInteger (1));
   Send [bs "LPUSH"; bs "mylist"; bs "hello"];
   Expect (FInteger (2));
   Send [bs "LRANGE"; bs "mylist"; bs "0"; bs "-1"];
   Expect (FArray [FBulk (bs "hello"); FBulk (bs "world")])] = true.
Proof. vm_compute. reflexivity. Qed.

(** Lines 80-112. *)
Example suite_list_lpushx : passes
  [Send [bs "LPUSH"; bs "mylist"; bs "World"];
   Expect (FInteger (1));
   Send [bs "LPUSHX"; bs "mylist"; bs "Hello"];
   Expect (FInteger (2));
   Send [bs "LPUSHX"; bs "myotherlist"; bs "Hello"];
   Expect (FInteger (0));
   Send [bs "LRANGE"; bs "mylist"; bs "0"; bs "-1"];
   Expect (FArray [FBulk (bs "Hello"); FBulk (bs "World")]);
   Send [bs "LRANGE"; bs "myotherlist"; bs "0"; bs "-1"];
   Expect (FArray [])] = true.
Proof. vm_compute. reflexivity. Qed.

(** Lines 115-162. *)
Example suite_list_lrange : passes
  [Send [bs "RPUSH"; bs "mylist"; bs "one"];
   Expect (FInteger (1));
   Send [bs "RPUSH"; bs "mylist"; bs "two"];
   Expect (FInteger (2));
   Send [bs "RPUSH"; bs "mylist"; bs "three"];
   Expect (FInteger (3));
   Send [bs "LRANGE"; bs "mylist"; bs "0"; bs "0"];
   Expect (FArray [FBulk (bs "one")]);
   Send [bs "LRANGE"; bs "mylist"; bs "-3"; bs "2"];
   Expect (FArray [FBulk (bs "one"); FBulk (bs "two"); FBulk (bs "three")]);
   Send [bs "LRANGE"; bs "mylist"; bs "-100"; bs "100"];
   Expect (FArray [FBulk (bs "one"); FBulk (bs "two"); FBulk (bs "three")]);
   Send [bs "LRANGE"; bs "mylist"; bs "5"; bs "10"];
   Expect (FArray [])] = true.
Proof. vm_compute. reflexivity. Qed.

(** Lines 165-201. *)
Example suite_list_rpop : passes
  [Send [bs "RPUSH"; bs "mylist"; bs "one"; bs "two"; bs "three"; bs "four"; bs "five"];
   Expect (FInteger (5));
   Send [bs "RPOP"; bs "mylist"];
   Expect (FArray [FBulk (bs "five")]);
   Send [bs "RPOP"; bs "mylist"; bs "2"];
   Expect (FArray [FBulk (bs "four"); FBulk (bs "three")]);
   Send [bs "LRANGE"; bs "mylist"; bs "0"; bs "-1"];
   Expect (FArray [FBulk (bs "one"); FBulk (bs "two")])] = true.
Proof. vm_compute. reflexivity. Qed.

(** Lines 204-221. *)
Example suite_list_rpush : passes
  [Send [bs "RPUSH"; bs "mylist"; bs "hello"];
   Expect (FInteger (1));
   Send [bs "RPUSH"; bs "mylist"; bs "world"];
   Expect (FInteger (2));
   Send [bs "LRANGE"; bs "mylist"; bs "0"; bs "-1"];
   Expect (FArray [FBulk (bs "hello"); FBulk (bs "world")])] = true.
Proof. vm_compute. reflexivity. Qed.

(** Lines 224-256. *)
Example suite_list_rpushx : passes
  [Send [bs "RPUSH"; bs "mylist"; bs "Hello"];
   Expect (FInteger (1));
   Send [bs "RPUSHX"; bs "mylist"; bs "World"];
   Expect (FInteger (2));
   Send [bs "RPUSHX"; bs "myotherlist"; bs "World"];
   Expect (FInteger (0));
   Send [bs "LRANGE"; bs "mylist"; bs "0"; bs "-1"];
   Expect (FArray [FBulk (bs "Hello"); FBulk (bs "World")]);
   Send [bs "LRANGE"; bs "myotherlist"; bs "0"; bs "-1"];
   Expect (FArray [])] = true.
Proof. vm_compute. reflexivity. Qed.

(** ** cmd_test/tests/server_cmd.rs *)

(** Lines 7-33. *)
Example suite_server_flushall : passes
  [Send [bs "SET"; bs "key1"; bs "Hello"];
   Expect (FSimple (bs "OK"));
   Send [bs "EXISTS"; bs "key1"];
   Expect (FInteger (1));
   Send [bs "flushall"];
   Expect (FSimple (bs "OK"));
   Send [bs "EXISTS"; bs "key1"];
   Expect (FInteger (0));
   Send [bs "SET"; bs "key2"; bs "Hello"];
   Expect (FSimple (bs "OK"));
   Send [bs "EXISTS"; bs "key2"];
   Expect (FInteger (1));
   Send [bs "flushall"; bs "sync"];
   Expect (FSimple (bs "OK"));
   Send [bs "EXISTS"; bs "key1"; bs "key2"];
   Expect (FInteger (0))] = true.
Proof. vm_compute. reflexivity. Qed.

(** Lines 36-40. *)
Example suite_server_info : passes
  [Send [bs "INFO"]] = true.
Proof. vm_compute. reflexivity. Qed.

(** Lines 43-51. *)
Example suite_server_dump : passes
  [Send [bs "SET"; bs "key1"; bs "Hello"];
   Expect (FSimple (bs "OK"));
   Send [bs "dump"; bs "key1"];
   Send [bs "dump"; bs "key2"]] = true.
Proof. vm_compute. reflexivity. Qed.

(** Lines 54-98. *)
Example suite_server_restore : passes
  [Send [bs "del"; bs "mykey"];
   Expect (FInteger (0));
   Send [bs "rpush"; bs "mykey"; bs "1"; bs "2"; bs "3"];
   Expect (FInteger (3));
   Send [bs "del"; bs "mykey"];
   Expect (FInteger (1));
   Send [bs "restore"; bs "mykey"; bs "0"; map byte_of_N [6; 0; 0; 0; 3; 0; 0; 0; 0; 0; 0; 0; 2; 0; 0; 0; 1; 0; 0; 0; 0; 0; 0; 0; 49; 2; 0; 0; 0; 1; 0; 0; 0; 0; 0; 0; 0; 50; 2; 0; 0; 0; 1; 0; 0; 0; 0; 0; 0; 0; 51; 0; 0; 0; 0; 0; 0; 0; 0]%N];
   Expect (FSimple (bs "OK"));
   Send [bs "LRANGE"; bs "mykey"; bs "0"; bs "-1"];
   Expect (FArray [FBulk (bs "1"); FBulk (bs "2"); FBulk (bs "3")])] = true.
Proof. vm_compute. reflexivity. Qed.

(** ** cmd_test/tests/set_cmd.rs *)

(** Lines 7-28. *)
Example suite_set_sadd : passes
  [Send [bs "SADD"; bs "myset"; bs "Hello"];
   Expect (FInteger (1));
   Send [bs "SADD"; bs "myset"; bs "World"];
   Expect (FInteger (1));
   Send [bs "SADD"; bs "myset"; bs "World"];
   Expect (FInteger (0));
   Send [bs "SMEMBERS"; bs "myset"];
   ExpectSorted [FSimple (bs "Hello"); FSimple (bs "World")]] = true.
Proof. vm_compute. reflexivity. Qed.

(** Lines 31-42. *)
Example suite_set_sismember : passes
  [Send [bs "SADD"; bs "myset"; bs "one"];
   Expect (FInteger (1));
   Send [bs "SISMEMBER"; bs "myset"; bs "one"];
   Expect (FInteger (1));
   Send [bs "SISMEMBER"; bs "myset"; bs "two"];
   Expect (FInteger (0))] = true.
Proof. vm_compute. reflexivity. Qed.

(** Lines 45-63. *)
Example suite_set_smembers : passes
  [Send [bs "SADD"; bs "myset"; bs "Hello"];
   Expect (FInteger (1));
   Send [bs "SADD"; bs "myset"; bs "World"];
   Expect (FInteger (1));
   Send [bs "SMEMBERS"; bs "myset"];
   ExpectSorted [FSimple (bs "Hello"); FSimple (bs "World")]] = true.
Proof. vm_compute. reflexivity. Qed.

(** Lines 66-81. *)
Example suite_set_smismember : passes
  [Send [bs "SADD"; bs "myset"; bs "one"];
   Expect (FInteger (1));
   Send [bs "SADD"; bs "myset"; bs "one"];
   Expect (FInteger (0));
   Send [bs "SMISMEMBER"; bs "myset"; bs "one"; bs "notamember"];
   ExpectSorted [FInteger (1); FInteger (0)]] = true.
Proof. vm_compute. reflexivity. Qed.

(** Lines 84-111. *)
Example suite_set_srem : passes
  [Send [bs "SADD"; bs "myset"; bs "one"];
   Expect (FInteger (1));
   Send [bs "SADD"; bs "myset"; bs "two"];
   Expect (FInteger (1));
   Send [bs "SADD"; bs "myset"; bs "three"];
   Expect (FInteger (1));
   Send [bs "SREM"; bs "myset"; bs "one"];
   Expect (FInteger (1));
   Send [bs "SREM"; bs "myset"; bs "four"];
   Expect (FInteger (0));
   Send [bs "SMEMBERS"; bs "myset"];
   ExpectSorted [FSimple (bs "two"); FSimple (bs "three")]] = true.
Proof. vm_compute. reflexivity. Qed.

(** ** cmd_test/tests/zset_cmd.rs *)

(** Lines 7-39. *)
Example suite_zset_zadd : passes
  [Send [bs "ZADD"; bs "myzset"; bs "1"; bs "one"];
   Expect (FInteger (1));
   Send [bs "ZADD"; bs "myzset"; bs "1"; bs "uno"];
   Expect (FInteger (1));
   Send [bs "ZADD"; bs "myzset"; bs "2"; bs "two"; bs "3"; bs "three"];
   Expect (FInteger (2));
   Send [bs "ZRANGE"; bs "myzset"; bs "0"; bs "-1"; bs "WITHSCORES"];
   Expect (FArray [FSimple (bs "one"); FSimple (bs "1"); FSimple (bs "uno"); FSimple (bs "1"); FSimple (bs "two"); FSimple (bs "2"); FSimple (bs "three"); FSimple (bs "3")])] = true.
Proof. vm_compute. reflexivity. Qed.

(** Lines 42-95. *)
Example suite_zset_zrange : passes
  [Send [bs "ZADD"; bs "myzset"; bs "1"; bs "one"];
   Expect (FInteger (1));
   Send [bs "ZADD"; bs "myzset"; bs "2"; bs "two"];
   Expect (FInteger (1));
   Send [bs "ZADD"; bs "myzset"; bs "3"; bs "three"];
   Expect (FInteger (1));
   Send [bs "ZRANGE"; bs "myzset"; bs "0"; bs "-1"];
   Expect (FArray [FSimple (bs "one"); FSimple (bs "two"); FSimple (bs "three")]);
   Send [bs "ZRANGE"; bs "myzset"; bs "2"; bs "3"];
   Expect (FArray [FSimple (bs "three")]);
   Send [bs "ZRANGE"; bs "myzset"; bs "-2"; bs "-1"];
   Expect (FArray [FSimple (bs "two"); FSimple (bs "three")]);
   Send [bs "ZRANGE"; bs "myzset"; bs "0"; bs "1"; bs "WITHSCORES"];
   Expect (FArray [FSimple (bs "one"); FSimple (bs "1"); FSimple (bs "two"); FSimple (bs "2")]);
   Send [bs "ZRANGE"; bs "myzset"; bs "(1"; bs "+inf"; bs "BYSCORE"; bs "LIMIT"; bs "1"; bs "1"];
   Expect (FArray [FSimple (bs "three")])] = true.
Proof. vm_compute. reflexivity. Qed.

(** Lines 98-146. *)
Example suite_zset_zrangebylex : passes
  [Send [bs "ZADD"; bs "myzset"; bs "0"; bs "a"; bs "0"; bs "b"; bs "0"; bs "c"; bs "0"; bs "d"; bs "0"; bs "e"; bs "0"; bs "f"; bs "0"; bs "g"];
   Expect (FInteger (7));
   Send [bs "ZRANGEBYLEX"; bs "myzset"; bs "-"; bs "[c"];
   Expect (FArray [FSimple (bs "a"); FSimple (bs "b"); FSimple (bs "c")]);
   Send [bs "ZRANGEBYLEX"; bs "myzset"; bs "-"; bs "(c"];
   Expect (FArray [FSimple (bs "a"); FSimple (bs "b")]);
   Send [bs "ZRANGEBYLEX"; bs "myzset"; bs "[aaa"; bs "(g"];
   Expect (FArray [FSimple (bs "b"); FSimple (bs "c"); FSimple (bs "d"); FSimple (bs "e"); FSimple (bs "f")])] = true.
Proof. vm_compute. reflexivity. Qed.

(** Lines 149-199. *)
Example suite_zset_zrangebyscore : passes
  [Send [bs "ZADD"; bs "myzset"; bs "1"; bs "one"];
   Expect (FInteger (1));
   Send [bs "ZADD"; bs "myzset"; bs "2"; bs "two"];
   Expect (FInteger (1));
   Send [bs "ZADD"; bs "myzset"; bs "3"; bs "three"];
   Expect (FInteger (1));
   Send [bs "ZRANGEBYSCORE"; bs "myzset"; bs "-inf"; bs "+inf"];
   Expect (FArray [FSimple (bs "one"); FSimple (bs "two"); FSimple (bs "three")]);
   Send [bs "ZRANGEBYSCORE"; bs "myzset"; bs "1"; bs "2"];
   Expect (FArray [FSimple (bs "one"); FSimple (bs "two")]);
   Send [bs "ZRANGEBYSCORE"; bs "myzset"; bs "(1"; bs "2"];
   Expect (FArray [FSimple (bs "two")]);
   Send [bs "ZRANGEBYSCORE"; bs "myzset"; bs "(1"; bs "(2"];
   Expect (FArray [])] = true.
Proof. vm_compute. reflexivity. Qed.

(** Lines 202-219. *)
Example suite_zset_zrank : passes
  [Send [bs "ZADD"; bs "myzset"; bs "1"; bs "one"];
   Expect (FInteger (1));
   Send [bs "ZADD"; bs "myzset"; bs "2"; bs "two"];
   Expect (FInteger (1));
   Send [bs "ZADD"; bs "myzset"; bs "3"; bs "three"];
   Expect (FInteger (1));
   Send [bs "ZRANK"; bs "myzset"; bs "three"];
   Expect (FInteger (2));
   Send [bs "ZRANK"; bs "myzset"; bs "four"];
   Expect (FNull)] = true.
Proof. vm_compute. reflexivity. Qed.

(** Lines 222-249. *)
Example suite_zset_zrem : passes
  [Send [bs "ZADD"; bs "myzset"; bs "1"; bs "one"];
   Expect (FInteger (1));
   Send [bs "ZADD"; bs "myzset"; bs "2"; bs "two"];
   Expect (FInteger (1));
   Send [bs "ZADD"; bs "myzset"; bs "3"; bs "three"];
   Expect (FInteger (1));
   Send [bs "ZREM"; bs "myzset"; bs "two"];
   Expect (FInteger (1));
   Send [bs "ZRANGE"; bs "myzset"; bs "0"; bs "-1"; bs "WITHSCORES"];
   Expect (FArray [FSimple (bs "one"); FSimple (bs "1"); FSimple (bs "three"); FSimple (bs "3")])] = true.
Proof. vm_compute. reflexivity. Qed.

(** Lines 252-303. *)
Example suite_zset_zremrangebylex : passes
  [Send [bs "ZADD"; bs "myzset"; bs "0"; bs "aaaa"; bs "0"; bs "b"; bs "0"; bs "c"; bs "0"; bs "d"; bs "0"; bs "e"];
   Expect (FInteger (5));
   Send [bs "ZADD"; bs "myzset"; bs "0"; bs "foo"; bs "0"; bs "zap"; bs "0"; bs "zip"; bs "0"; bs "ALPHA"; bs "0"; bs "alpha"];
   Expect (FInteger (5));
   Send [bs "ZRANGE"; bs "myzset"; bs "0"; bs "-1"];
   Expect (FArray [FSimple (bs "ALPHA"); FSimple (bs "aaaa"); FSimple (bs "alpha"); FSimple (bs "b"); FSimple (bs "c"); FSimple (bs "d"); FSimple (bs "e"); FSimple (bs "foo"); FSimple (bs "zap"); FSimple (bs "zip")]);
   Send [bs "ZREMRANGEBYLEX"; bs "myzset"; bs "[alpha"; bs "[omega"];
   Expect (FInteger (6));
   Send [bs "ZRANGE"; bs "myzset"; bs "0"; bs "-1"];
   Expect (FArray [FSimple (bs "ALPHA"); FSimple (bs "aaaa"); FSimple (bs "zap"); FSimple (bs "zip")])] = true.
Proof. vm_compute. reflexivity. Qed.

(** Lines 306-335. *)
Example suite_zset_zremrangebyrank : passes
  [Send [bs "ZADD"; bs "myzset"; bs "1"; bs "one"];
   Expect (FInteger (1));
   Send [bs "ZADD"; bs "myzset"; bs "2"; bs "two"];
   Expect (FInteger (1));
   Send [bs "ZADD"; bs "myzset"; bs "3"; bs "three"];
   Expect (FInteger (1));
   Send [bs "zremrangebyrank"; bs "myzset"; bs "0"; bs "1"];
   Expect (FInteger (2));
   Send [bs "ZRANGE"; bs "myzset"; bs "0"; bs "-1"; bs "WITHSCORES"];
   Expect (FArray [FSimple (bs "three"); FSimple (bs "3")])] = true.
Proof. vm_compute. reflexivity. Qed.

(** Lines 338-369. *)
Example suite_zset_zremrangebyscore : passes
  [Send [bs "ZADD"; bs "myzset"; bs "1"; bs "one"];
   Expect (FInteger (1));
   Send [bs "ZADD"; bs "myzset"; bs "2"; bs "two"];
   Expect (FInteger (1));
   Send [bs "ZADD"; bs "myzset"; bs "3"; bs "three"];
   Expect (FInteger (1));
   Send [bs "zremrangebyscore"; bs "myzset"; bs "-inf"; bs "(2"];
   Expect (FInteger (1));
   Send [bs "ZRANGE"; bs "myzset"; bs "0"; bs "-1"; bs "WITHSCORES"];
   Expect (FArray [FSimple (bs "two"); FSimple (bs "2"); FSimple (bs "three"); FSimple (bs "3")])] = true.
Proof. vm_compute. reflexivity. Qed.

(** Lines 372-414. *)
Example suite_zset_zrevrange : passes
  [Send [bs "ZADD"; bs "myzset"; bs "1"; bs "one"];
   Expect (FInteger (1));
   Send [bs "ZADD"; bs "myzset"; bs "2"; bs "two"];
   Expect (FInteger (1));
   Send [bs "ZADD"; bs "myzset"; bs "3"; bs "three"];
   Expect (FInteger (1));
   Send [bs "zrevrange"; bs "myzset"; bs "0"; bs "-1"];
   Expect (FArray [FSimple (bs "three"); FSimple (bs "two"); FSimple (bs "one")]);
   Send [bs "zrevrange"; bs "myzset"; bs "2"; bs "3"];
   Expect (FArray [FSimple (bs "one")]);
   Send [bs "zrevrange"; bs "myzset"; bs "-2"; bs "-1"];
   Expect (FArray [FSimple (bs "two"); FSimple (bs "one")])] = true.
Proof. vm_compute. reflexivity. Qed.

(** Lines 417-465. *)
Example suite_zset_zrevrangebylex : passes
  [Send [bs "ZADD"; bs "myzset"; bs "0"; bs "a"; bs "0"; bs "b"; bs "0"; bs "c"; bs "0"; bs "d"; bs "0"; bs "e"; bs "0"; bs "f"; bs "0"; bs "g"];
   Expect (FInteger (7));
   Send [bs "ZrevRANGEBYLEX"; bs "myzset"; bs "[c"; bs "-"];
   Expect (FArray [FSimple (bs "c"); FSimple (bs "b"); FSimple (bs "a")]);
   Send [bs "ZrevRANGEBYLEX"; bs "myzset"; bs "(c"; bs "-"];
   Expect (FArray [FSimple (bs "b"); FSimple (bs "a")]);
   Send [bs "ZrevRANGEBYLEX"; bs "myzset"; bs "(g"; bs "[aaa"];
   Expect (FArray [FSimple (bs "f"); FSimple (bs "e"); FSimple (bs "d"); FSimple (bs "c"); FSimple (bs "b")])] = true.
Proof. vm_compute. reflexivity. Qed.

(** Lines 468-518. *)
Example suite_zset_zrevrangebyscore : passes
  [Send [bs "ZADD"; bs "myzset"; bs "1"; bs "one"];
   Expect (FInteger (1));
   Send [bs "ZADD"; bs "myzset"; bs "2"; bs "two"];
   Expect (FInteger (1));
   Send [bs "ZADD"; bs "myzset"; bs "3"; bs "three"];
   Expect (FInteger (1));
   Send [bs "zrevrangebyscore"; bs "myzset"; bs "+inf"; bs "-inf"];
   Expect (FArray [FSimple (bs "three"); FSimple (bs "two"); FSimple (bs "one")]);
   Send [bs "zrevrangebyscore"; bs "myzset"; bs "2"; bs "1"];
   Expect (FArray [FSimple (bs "two"); FSimple (bs "one")]);
   Send [bs "zrevrangebyscore"; bs "myzset"; bs "2"; bs "(1"];
   Expect (FArray [FSimple (bs "two")]);
   Send [bs "zrevrangebyscore"; bs "myzset"; bs "(2"; bs "(1"];
   Expect (FArray [])] = true.
Proof. vm_compute. reflexivity. Qed.

(** Lines 521-541. *)
Example suite_zset_zrevrank : passes
  [Send [bs "ZADD"; bs "myzset"; bs "1"; bs "one"];
   Expect (FInteger (1));
   Send [bs "ZADD"; bs "myzset"; bs "2"; bs "two"];
   Expect (FInteger (1));
   Send [bs "ZADD"; bs "myzset"; bs "3"; bs "three"];
   Expect (FInteger (1));
   Send [bs "ZREVRANK"; bs "myzset"; bs "three"];
   Expect (FInteger (0));
   Send [bs "ZREVRANK"; bs "myzset"; bs "one"];
   Expect (FInteger (2));
   Send [bs "ZREVRANK"; bs "myzset"; bs "four"];
   Expect (FNull)] = true.
Proof. vm_compute. reflexivity. Qed.

(** ** Unit tests of component/common/src/connection/parse/frame.rs *)

(** frame.rs:324-339. *)
Definition nested_text : bytes :=
  bs "*2" ++ CRLF ++ bs "*3" ++ CRLF ++ bs ":1" ++ CRLF ++ bs "$5" ++ CRLF ++ bs "hello" ++ CRLF ++ bs ":2" ++ CRLF ++
  bs "+abc" ++ CRLF.
Definition nested_frame : frame :=
  FArray [FArray [FInteger 1; FBulk (bs "hello"); FInteger 2]; FSimple (bs "abc")].
Example suite_frame_test : parse nested_text = POk nested_frame [] /\ write nested_frame = nested_text.
Proof. split; vm_compute; reflexivity. Qed.
(** frame.rs:341-362. *)
Definition set_text : bytes :=
  bs "*3" ++ CRLF ++ bs "$3" ++ CRLF ++ bs "SET" ++ CRLF ++ bs "$5" ++ CRLF ++ bs "hello" ++ CRLF ++ bs "$5" ++ CRLF ++
  bs "world" ++ CRLF.
Definition set_frame : frame := FArray [FBulk (bs "SET"); FBulk (bs "hello"); FBulk (bs "world")].
Example suite_frame_test2 : parse set_text = POk set_frame [] /\ write set_frame = set_text.
Proof. split; vm_compute; reflexivity. Qed.

(** ** Unit tests of component/dict/src/cmd *)

(** A step of a unit test: a request applied to the dictionary at a time after the start, with the value returned
    (for a request that reports expiry changes also the report). *)
Inductive ustep :=
  | UWrite (t : N) (w : wreq) (r : resp) (e : exp_status)
  | URead (t : N) (r : rreq) (p : resp).
(** [DEL]'s payload is compared by its data (del.rs:104-112). *)
Definition resp_shown (p : resp) : resp :=
  match p with POptValue (Some v) => PData (v_data v) | p => p end.
Fixpoint holds (s : list ustep) (d : dict) : bool :=
  match s with
  | [] => true
  | UWrite t w r e :: s =>
      let '(d', o, e') := wapply t w d in bool_decide (outcome_map resp_shown o = OOk r) && bool_decide (e = e') && holds s d'
  | URead t r p :: s => let '(d', o) := rapply horder_default t r d in bool_decide (o = OOk p) && holds s d'
  end.
(** [From<&str>] and [From<&[u8]>]: data_type/mod.rs:30-41. *)
Definition str (s : String.string) : scalar := SString (bs s).
Definition byt (s : String.string) : scalar := SBytes (bs s).
Arguments str _%string_scope. Arguments byt _%string_scope.
Definition T0 : N := 1637000000000.
Definition soon : N := T0 + 1000.
Notation hello := (bs "hello").

(** deque/pop.rs:64-107. *)
Example suite_deque_pop : holds
  [UWrite T0 (WDequePush hello [str "0"; str "1"; str "2"; str "3"; str "4"; str "5"; str "6"; str "7"; str "8"; str "9"] false NxXx_None)
     (PLens (Lens 0 10)) None;
   UWrite T0 (WDequePop hello 3 false) (PScalars [str "9"; str "8"; str "7"]) None;
   UWrite T0 (WDequePop hello 4 true) (PScalars [str "0"; str "1"; str "2"; str "3"]) None] dict_empty = true.
Proof. vm_compute. reflexivity. Qed.

(** deque/push.rs:105-208. *)
Definition six : list scalar := [str "0"; str "1"; str "2"; str "3"; str "4"; str "5"].
Example suite_deque_push : holds
  [UWrite T0 (WDequePush hello six false NxXx_Xx) (PLens (Lens 0 0)) None;
   UWrite T0 (WDequePush hello six false NxXx_None) (PLens (Lens 0 6)) None;
   URead T0 (RDequeRange hello 0 (-1)) (PScalars six);
   UWrite T0 (WDequePush hello [str "0"; str "1"; str "2"] true NxXx_Xx) (PLens (Lens 6 9)) None;
   URead T0 (RDequeRange hello 0 (-1)) (PScalars ([str "2"; str "1"; str "0"] ++ six))] dict_empty = true.
Proof. vm_compute. reflexivity. Qed.

(** deque/len.rs:36-57. *)
Example suite_deque_len : holds
  [URead T0 (RDequeLen hello) (PNat 0);
   UWrite T0 (WDequePush hello [str "a"; str "b"; str "c"] false NxXx_None) (PLens (Lens 0 3)) None;
   URead T0 (RDequeLen hello) (PNat 3)] dict_empty = true.
Proof. vm_compute. reflexivity. Qed.

(** simple/incr.rs:54-70. *)
Example suite_simple_incr : holds
  [UWrite T0 (WIncr hello 10) (PInt 10) None; UWrite T0 (WIncr hello (-5)) (PInt 5) None] dict_empty = true.
Proof. vm_compute. reflexivity. Qed.

(** simple/exists.rs:31-67. *)
Example suite_simple_exists : holds
  [URead T0 (RExists hello) (PBool false);
   UWrite T0 (WSet hello (str "world") (Specific soon) NxXx_None) (PData DNull) (Some (ExpUpdate hello 0 soon));
   URead T0 (RExists hello) (PBool true)] dict_empty = true.
Proof. vm_compute. reflexivity. Qed.

(** simple/set.rs:144-293. *)
Example suite_simple_set : holds
  [UWrite T0 (WSet hello (str "world") (Specific soon) NxXx_None) (PData DNull) (Some (ExpUpdate hello 0 soon));
   URead T0 (RGet hello) (PData (DScalar (str "world")));
   URead T0 (RGet (bs "n")) (PData DNull);
   UWrite T0 (WSet hello (str "world2") (Specific soon) NxXx_Xx) (PData (DScalar (str "world"))) (Some (ExpUpdate hello soon soon));
   UWrite T0 (WSet (bs "n") (str "world2") (Specific soon) NxXx_Xx) (PData DNull) None;
   URead T0 (RGet hello) (PData (DScalar (str "world2")));
   URead T0 (RGet (bs "n")) (PData DNull);
   UWrite T0 (WSet hello (str "world3") (Specific soon) NxXx_Nx) (PData (DScalar (str "world2"))) None;
   UWrite T0 (WSet (bs "n") (str "world3") (Specific 0) NxXx_Nx) (PData DNull) None;
   URead T0 (RGet hello) (PData (DScalar (str "world2")));
   URead T0 (RGet (bs "n")) (PData (DScalar (str "world3")));
   UWrite T0 (WSet hello (str "world") Last NxXx_None) (PData (DScalar (str "world2"))) (Some (ExpUpdate hello soon soon));
   URead T0 (RGet hello) (PData (DScalar (str "world")));
   URead T0 (RGet (bs "n")) (PData (DScalar (str "world3")));
   URead (soon + 1) (RGet hello) (PData DNull);
   URead (soon + 1) (RGet (bs "n")) (PData (DScalar (str "world3")))] dict_empty = true.
Proof. vm_compute. reflexivity. Qed.

(** simple/del.rs:67-106. *)
Example suite_simple_del : holds
  [UWrite T0 (WDel hello) (POptValue None) None;
   UWrite T0 (WSet hello (str "world") (Specific soon) NxXx_None) (PData DNull) (Some (ExpUpdate hello 0 soon));
   UWrite T0 (WDel hello) (PData (DString (bs "world"))) (Some (ExpUpdate hello soon 0))] dict_empty = true.
Proof. vm_compute. reflexivity. Qed.

(** simple/expire.rs:89-146. *)
Example suite_simple_expire : holds
  [UWrite T0 (WSet hello (str "world") (Specific 0) NxXx_None) (PData DNull) None;
   URead T0 (RExists hello) (PBool true);
   UWrite T0 (WExpire hello soon NxXx_None GtLt_None) (PBool true) (Some (ExpUpdate hello 0 soon));
   URead T0 (RExists hello) (PBool true);
   URead (soon + 1) (RExists hello) (PBool false)] dict_empty = true.
Proof. vm_compute. reflexivity. Qed.

(** kvp/incr.rs:63-119. *)
Example suite_kvp_incr : holds
  [UWrite T0 (WKvpSet hello [(bs "k1", byt "1"); (bs "k2", byt "2")] NxXx_None) (PLens (Lens 0 2)) None;
   UWrite T0 (WKvpIncr hello (bs "k1") 1) (PInt 2) None;
   UWrite T0 (WKvpIncr hello (bs "k3") 10) (PInt 10) None;
   URead T0 (RKvpGetAll hello)
     (PKvp (list_to_map [(bs "k1", SInteger 2); (bs "k2", byt "2"); (bs "k3", SInteger 10)]))] dict_empty = true.
Proof. vm_compute. reflexivity. Qed.

(** kvp/mod.rs:21-157. *)
Example suite_kvp_mod : holds
  [UWrite T0 (WKvpSet hello [(bs "k1", byt "v1"); (bs "k2", byt "v2"); (bs "k3", byt "v3")] NxXx_None) (PLens (Lens 0 3)) None;
   URead T0 (RKvpGetAll hello) (PKvp (list_to_map [(bs "k1", byt "v1"); (bs "k2", byt "v2"); (bs "k3", byt "v3")]));
   UWrite T0 (WKvpSet hello [(bs "k1", byt "v1"); (bs "k4", byt "v4"); (bs "k5", byt "v5")] NxXx_Nx) (PLens (Lens 3 5)) None;
   URead T0 (RKvpGetAll hello)
     (PKvp (list_to_map [(bs "k1", byt "v1"); (bs "k2", byt "v2"); (bs "k3", byt "v3"); (bs "k4", byt "v4"); (bs "k5", byt "v5")]));
   URead T0 (RKvpGet hello [bs "k1"]) (PScalars [byt "v1"]);
   URead T0 (RKvpGet hello [bs "k6"]) (PScalars [SNull]);
   URead T0 (RKvpGet (bs "hello2") [bs "k1"]) (PScalars [SNull]);
   URead T0 (RKvpExists hello (bs "k1")) (PBool true);
   UWrite T0 (WKvpDel hello [bs "k1"; bs "k10"]) (PLens (Lens 5 4)) None;
   URead T0 (RKvpExists hello (bs "k1")) (PBool false)] dict_empty = true.
Proof. vm_compute. reflexivity. Qed.

(** set/mod.rs:15-104. *)
Example suite_set_mod : holds
  [UWrite T0 (WSetAdd hello [bs "k1"; bs "k2"; bs "k3"]) (PLens (Lens 0 3)) None;
   URead T0 (RSetGetAll hello) (PSet (list_to_set [bs "k1"; bs "k2"; bs "k3"]));
   UWrite T0 (WSetAdd hello [bs "k1"; bs "k4"; bs "k5"]) (PLens (Lens 3 5)) None;
   URead T0 (RSetGetAll hello) (PSet (list_to_set [bs "k1"; bs "k2"; bs "k3"; bs "k4"; bs "k5"]));
   URead T0 (RSetExists hello [bs "k1"]) (PBools [true]);
   UWrite T0 (WSetRemove hello [bs "k1"; bs "k10"]) (PLens (Lens 5 4)) None;
   URead T0 (RSetExists hello [bs "k1"]) (PBools [false])] dict_empty = true.
Proof. vm_compute. reflexivity. Qed.
