(** C39-C42, C55: serialization, DUMP/RESTORE and the access statistics. *)
From Verif Require Import SerdeFacts VisitFacts ZsetInv.
Local Open Scope N_scope.

(** ** C39: DUMP answers a payload; RESTORE of that payload under any key, in any later state and at any later
    instant, with any deadline, recreates the dumped data under that key. *)
Theorem C39_dump_restore (ho : horder) (t : N) (k : bytes) (b : db) (x : data) (e : N) :
  horder_ok ho -> db_view t b k = Some (x, e) -> data_fits x ->
  exists payload, snd (db_read ho t (RDump k) b) = OOk (POptBytes (Some payload)) /\
  forall t' b' k' e' rp visit freq,
    rp = true \/ db_view t' b' k' = None ->
    let r := WRestore (RestoreReq k' payload e' rp visit freq) in
    wo_res (snd (db_write t' r b')) = OOk PUnit /\
    db_contents (fst (db_write t' r b')) k' = Some (x, e').
Proof.
  intros H V F. apply view_raw in V as (v & R & AL & <- & _).
  exists (put_value ho (touch t v)). split; [by apply dump_reply|].
  intros t' b' k' e' rp visit freq C r. pose proof (payload_data ho (touch t v) H F) as P.
  pose proof (restore_view t' (RestoreReq k' (put_value ho (touch t v)) e' rp visit freq) (snd (next_id (b' (get_slot k'))))) as Q.
  cbn [r_replace r_key r_value r_exp] in Q.
  destruct (Q C _ P) as [Q1 Q2]. clear Q.
  pose proof (db_write_unfold t' r b') as [W1 W2]. cbn [wkey r r_key] in W1, W2.
  rewrite W1, W2. rewrite slot_write_res, slot_write_fst. unfold r. cbn [wapply].
  unfold db_contents. rewrite db_set_same.
  destruct (restore_apply t' _ _) as [[d' o] u]. cbn [fst snd] in *. subst o. done.
Qed.
Print Assumptions C39_dump_restore.
(** A key that is absent (or expired) has no payload. *)
Theorem C39_dump_absent (ho : horder) (t : N) (k : bytes) (b : db) :
  db_view t b k = None -> snd (db_read ho t (RDump k) b) = OOk (POptBytes None).
Proof. exact (dump_absent ho t k b). Qed.
Print Assumptions C39_dump_absent.
Example C39_case :
  let b := fst (db_run horder_default
             [(5, CWrite (WZAdd (bs "z") [Node (f64_of_Z 2) (bs "b"); Node (f64_of_Z (-1)) (bs "a")] NxXx_None GtLt_None false))] db_empty) in
  horder_ok horder_default /\
  exists h l, db_view 9 b (bs "z") = Some (DZSet h l, 0) /\ data_fits (DZSet h l) /\ length l = 2%nat.
Proof.
  split; [apply horder_default_ok|].
  exists {[ bs "b" := Node (f64_of_Z 2) (bs "b"); bs "a" := Node (f64_of_Z (-1)) (bs "a") ]},
         [Node (f64_of_Z (-1)) (bs "a"); Node (f64_of_Z 2) (bs "b")].
  split; [apply (bool_decide_eq_true_1 _); vm_compute; reflexivity|]. split; [|done].
  cbn [data_fits]. split; [split|].
  - vm_compute; reflexivity.
  - intros k n. rewrite lookup_insert_Some. intros [[<- <-]|[_ E]]; [|rewrite lookup_singleton_Some in E; destruct E as [<- <-]];
      (split; [vm_compute; reflexivity|]; split; vm_compute; reflexivity).
  - split; [vm_compute; reflexivity|]. split.
    + repeat (apply List.Forall_cons; [split; vm_compute; reflexivity|]). apply List.Forall_nil.
    + cbn [tree_ordered]. split.
      * apply List.Forall_cons; [vm_compute; reflexivity|apply List.Forall_nil].
      * split; [apply List.Forall_nil|done].
Qed.

(** ** C40: RESTORE without REPLACE on a live key answers BUSYKEY; a payload that does not decode is refused.  In
    both cases no key's data or deadline changes, and no deadline is announced. *)
Theorem C40_busy_key (now : N) (r : restore_req) (d : dict) (x : data) (e : N) :
  view now d (r_key r) = Some (x, e) -> r_replace r = false ->
  exists d', wapply now (WRestore r) d = (d', OErr EBusyKey, None) /\ same_contents d d'.
Proof.
  intros V R. exists (fst (dict_get now (r_key r) d)). split; [|apply dict_get_same].
  cbn [wapply]. by rewrite (restore_busy now r d x e).
Qed.
Print Assumptions C40_busy_key.
Theorem C40_malformed_payload (now : N) (r : restore_req) (d : dict) :
  (forall x, deserialize get_data (r_value r) <> OOk x) ->
  (forall p, snd (fst (wapply now (WRestore r) d)) <> OOk p) /\
  same_contents d (fst (fst (wapply now (WRestore r) d))) /\
  snd (wapply now (WRestore r) d) = None.
Proof.
  intros M. destruct (restore_malformed now r d M) as (A & B & C). cbn [wapply].
  destruct (restore_apply now r d) as [[d' o] u]. cbn [fst snd] in *.
  split; [|done]. intros p. destruct o as [[]| |]; cbn; try done. by destruct (A tt).
Qed.
Print Assumptions C40_malformed_payload.
(** Every truncation of a well-formed payload is malformed. *)
Theorem C40_truncated_payload (ho : horder) (x : data) (p q : bytes) :
  horder_ok ho -> data_fits x -> put_data ho x = p ++ q -> q <> [] -> forall y, deserialize get_data p <> OOk y.
Proof.
  intros H F E Q y D. unfold deserialize in D. destruct (get_data p) as [z r| |] eqn:G; try done.
  pose proof (ext_data _ _ _ q G) as Y. rewrite <- E in Y.
  pose proof (codec_data ho H x [] F) as Z. rewrite app_nil_r in Z.
  rewrite Y in Z. injection Z as _ Z. apply app_eq_nil in Z as [_ Z]. done.
Qed.
Print Assumptions C40_truncated_payload.
(** The decoder may also panic (a sorted set with a NaN score): the key is untouched, but the client's connection
    dies without a reply instead of getting an error. *)
Theorem C40_panicking_payload_refuted :
  exists payload, forall now,
    snd (fst (wapply now (WRestore (RestoreReq (bs "k") payload 0 false 0 0)) dict_empty)) = OPanic.
Proof.
  exists (put_u32 8 ++ put_u64 0 ++ put_u64 2 ++ put_node (Node S754_nan (bs "a")) ++ put_node (Node S754_nan (bs "b"))).
  intros now. cbn [wapply]. unfold restore_apply, dict_get. cbn [r_key r_value inner dict_empty].
  rewrite lookup_empty. cbv iota beta. 
  assert (deserialize get_data (put_u32 8 ++ put_u64 0 ++ put_u64 2 ++ put_node (Node S754_nan (bs "a")) ++ put_node (Node S754_nan (bs "b"))) = OPanic)
    as -> by (vm_compute; reflexivity).
  done.
Qed.
Print Assumptions C40_panicking_payload_refuted.
(** A decodable payload is trusted: RESTORE installs a sorted set whose two indexes disagree. *)
Theorem C40_inconsistent_zset_refuted :
  exists payload, forall now, exists h l,
    snd (fst (wapply now (WRestore (RestoreReq (bs "k") payload 0 false 0 0)) dict_empty)) = OOk PUnit /\
    contents (fst (fst (wapply now (WRestore (RestoreReq (bs "k") payload 0 false 0 0)) dict_empty))) (bs "k") = Some (DZSet h l, 0) /\
    h = ∅ /\ l <> [].
Proof.
  exists (put_u32 8 ++ put_u64 0 ++ put_u64 1 ++ put_node (Node (f64_of_Z 1) (bs "a"))).
  intros now. exists ∅, [Node (f64_of_Z 1) (bs "a")].
  pose proof (restore_view now (RestoreReq (bs "k") (put_u32 8 ++ put_u64 0 ++ put_u64 1 ++ put_node (Node (f64_of_Z 1) (bs "a"))) 0 false 0 0)
    dict_empty (or_intror eq_refl) (DZSet ∅ [Node (f64_of_Z 1) (bs "a")])) as H.
  destruct H as [H1 H2]; [vm_compute; reflexivity|]. cbn [wapply].
  destruct (restore_apply now _ dict_empty) as [[d' o] u]. cbn [fst snd r_key r_exp] in *. subst o. done.
Qed.
Print Assumptions C40_inconsistent_zset_refuted.
Example C40_case :
  let d := fst (fst (wapply 3 (WSet (bs "k") (SBytes (bs "v")) (Specific 0) NxXx_None) dict_empty)) in
  view 9 d (bs "k") = Some (DScalar (SBytes (bs "v")), 0) /\
  (forall x, deserialize get_data (bs "junk") <> OOk x) /\ put_scalar (SInteger 7) = firstn 5 (put_scalar (SInteger 7)) ++ skipn 5 (put_scalar (SInteger 7)).
Proof. split; [vm_compute; reflexivity|]. split; [|vm_compute; reflexivity]. intros x. vm_compute. discriminate. Qed.

(** ** C41: the access statistics.  After an access at [t0] and until the next one the recorded access time is [t0]
    rounded down to ten seconds; the frequency never exceeds 65535; TTL and OBJECT change nothing at all. *)
Theorem C41_last_access (ho : horder) (t0 t1 : N) (r : rreq) (b : db) (h : list (N * cmd)) (k : bytes) (x : data) (e : N) :
  accessing k r -> db_view t0 b k = Some (x, e) -> quiet k h -> t0 / 10000 < 2 ^ 32 ->
  exists s, snd (db_read ho t1 (RLastVisit k) (fst (db_run ho h (fst (db_read ho t0 r b))))) = OOk (POptN (Some s)) /\
            s * 1000 <= t0 < (s + 10) * 1000.
Proof.
  intros A V Q H. exists (t0 / 10000 * 10). split; [by apply (idle_time ho t0 t1 r b h k x e)|].
  pose proof (N.div_mod t0 10000). pose proof (N.mod_lt t0 10000). lia.
Qed.
Print Assumptions C41_last_access.
Theorem C41_freq_bounded (ho : horder) (t : N) (k : bytes) (b : db) (n : N) :
  snd (db_read ho t (RVisitTimes k) b) = OOk (POptN (Some n)) -> n <= 65535.
Proof. exact (freq_bounded ho t k b n). Qed.
Print Assumptions C41_freq_bounded.
Theorem C41_object_and_ttl_are_silent (ho : horder) (t : N) (r : rreq) (b : db) :
  silent (CRead r) -> forall k, db_raw (fst (db_read ho t r b)) k = db_raw b k.
Proof. intros S k. exact (db_cmd_silent ho t (CRead r) b S k). Qed.
Print Assumptions C41_object_and_ttl_are_silent.
(** RESTORE ... FREQ n with n above 65535 spills into the other fields: the key looks as if last accessed later. *)
Theorem C41_restore_freq_spills_refuted :
  exists r t, r_visit r = 0 /\ t < 10000 /\
    let b := fst (db_write t (WRestore r) db_empty) in
    snd (db_read horder_default t (RLastVisit (bs "k")) b) = OOk (POptN (Some 10)).
Proof.
  exists (RestoreReq (bs "k") (put_scalar (SInteger 1)) 0 false 0 4294967296), 0. split; [done|]. split; [done|].
  vm_compute. reflexivity.
Qed.
Print Assumptions C41_restore_freq_spills_refuted.
Example C41_case :
  let b := fst (db_write 1000 (WSet (bs "k") (SBytes (bs "v")) (Specific 0) NxXx_None) db_empty) in
  accessing (bs "k") (RGet (bs "k")) /\ db_view 123456 b (bs "k") = Some (DScalar (SBytes (bs "v")), 0) /\
  quiet (bs "k") [(130000, CRead (RTtl (bs "k"))); (130001, CWrite (WDel (bs "j")))] /\
  snd (db_read horder_default 130002 (RLastVisit (bs "k")) (fst (db_read horder_default 123456 (RGet (bs "k")) b))) = OOk (POptN (Some 120)).
Proof.
  split; [split; [done|intros []]|]. split; [vm_compute; reflexivity|]. split; [|vm_compute; reflexivity].
  apply List.Forall_cons; [by right|]. apply List.Forall_cons; [by left|apply List.Forall_nil].
Qed.

(** ** C42: within one era of the 16-bit minute counter, an access lowers the frequency by the whole minutes since
    the previous access, then adds one (up to 65535). *)
Theorem C42_frequency_decay_partial (ho : horder) (t0 t1 t : N) (r0 r1 : rreq) (b : db) (h h' : list (N * cmd))
    (k : bytes) (x : data) (e f : N) :
  accessing k r0 -> accessing k r1 -> db_view t0 b k = Some (x, e) ->
  quiet k h -> lives t1 e -> t0 <= t1 -> t0 / 60000 / 65536 = t1 / 60000 / 65536 -> quiet k h' ->
  let b1 := fst (db_run ho h (fst (db_read ho t0 r0 b))) in
  let b2 := fst (db_run ho h' (fst (db_read ho t1 r1 b1))) in
  snd (db_read ho t (RVisitTimes k) b1) = OOk (POptN (Some f)) ->
  snd (db_read ho t (RVisitTimes k) b2) = OOk (POptN (Some (N.min 65535 ((f - (t1 / 60000 - t0 / 60000)) + 1)))).
Proof. exact (freq_decay ho t0 r0 b h t1 r1 k x e h' t f). Qed.
Print Assumptions C42_frequency_decay_partial.
(** When the minute counter wraps (every 65536 minutes) one minute without access resets the frequency to 1 ... *)
Theorem C42_wrap_resets_refuted :
  exists t0 t1 b, t1 / 60000 - t0 / 60000 = 1 /\
    let b1 := fst (db_read horder_default t0 (RGet (bs "k")) b) in
    let b2 := fst (db_read horder_default t1 (RGet (bs "k")) b1) in
    snd (db_read horder_default t1 (RVisitTimes (bs "k")) b1) = OOk (POptN (Some 6)) /\
    snd (db_read horder_default t1 (RVisitTimes (bs "k")) b2) = OOk (POptN (Some 1)).
Proof.
  exists (65536 * 60000 - 1), (65536 * 60000),
    (fst (db_write (65535 * 60000) (WSet (bs "k") (SBytes (bs "v")) (Specific 0) NxXx_None) db_empty)).
  vm_compute. auto.
Qed.
Print Assumptions C42_wrap_resets_refuted.
(** ... and 65536 minutes without access do not lower it at all. *)
Theorem C42_era_skips_decay_refuted :
  exists t0 t1 b, t1 / 60000 - t0 / 60000 = 65536 /\
    let b1 := fst (db_read horder_default t0 (RGet (bs "k")) b) in
    let b2 := fst (db_read horder_default t1 (RGet (bs "k")) b1) in
    snd (db_read horder_default t1 (RVisitTimes (bs "k")) b1) = OOk (POptN (Some 6)) /\
    snd (db_read horder_default t1 (RVisitTimes (bs "k")) b2) = OOk (POptN (Some 7)).
Proof.
  exists 60000, (65537 * 60000),
    (fst (db_write 60000 (WSet (bs "k") (SBytes (bs "v")) (Specific 0) NxXx_None) db_empty)).
  vm_compute. auto.
Qed.
Print Assumptions C42_era_skips_decay_refuted.
Example C42_case :
  let b := fst (db_write 0 (WSet (bs "k") (SBytes (bs "v")) (Specific 0) NxXx_None) db_empty) in
  let b1 := fst (db_read horder_default 60000 (RGet (bs "k")) b) in
  let b2 := fst (db_read horder_default 240000 (RExists (bs "k")) b1) in
  db_view 60000 b (bs "k") = Some (DScalar (SBytes (bs "v")), 0) /\
  60000 / 60000 / 65536 = 240000 / 60000 / 65536 /\
  snd (db_read horder_default 0 (RVisitTimes (bs "k")) b1) = OOk (POptN (Some 5)) /\
  snd (db_read horder_default 0 (RVisitTimes (bs "k")) b2) = OOk (POptN (Some 3)).
Proof. vm_compute. auto. Qed.

(** ** C55: every forwarded message decodes to exactly what was sent, a stream of messages to the same sequence,
    and a stream cut inside a message to the messages before it. *)
Theorem C55_message_roundtrip (m : fwd_msg) (rest : bytes) :
  sendable m -> get_msg (put_msg m ++ rest) = DOk m rest.
Proof. exact (codec_msg m rest). Qed.
Print Assumptions C55_message_roundtrip.
Theorem C55_stream_roundtrip (ms : list fwd_msg) :
  Forall sendable ms -> receive_cmd (length (put_msgs ms)) (put_msgs ms) = (ms, []).
Proof.
  intros H. pose proof (receive_put_msgs ms [] (length (put_msgs ms)) H (put_msgs_length ms)) as R.
  rewrite app_nil_r in R. rewrite R.
  assert (E : forall n, receive_cmd n [] = ([], [])) by (by intros []).
  rewrite E. cbn [fst snd]. by rewrite app_nil_r.
Qed.
Print Assumptions C55_stream_roundtrip.
Theorem C55_truncated_stream (ms : list fwd_msg) (m : fwd_msg) (s t : bytes) (fuel : nat) :
  Forall sendable ms -> sendable m -> put_msg m = s ++ t -> t <> [] -> (length ms <= fuel)%nat ->
  receive_cmd fuel (put_msgs ms ++ s) = (ms, s).
Proof. exact (receive_truncated ms m s t fuel). Qed.
Print Assumptions C55_truncated_stream.
(** The length-prefixed variant, for messages shorter than 4 GiB. *)
Theorem C55_length_prefixed_roundtrip (m : fwd_msg) (rest : bytes) :
  sendable m -> N.of_nat (length (put_msg m)) < 2 ^ 32 -> stream_decode (stream_encode m ++ rest) = DOk m rest.
Proof. exact (stream_roundtrip m rest). Qed.
Print Assumptions C55_length_prefixed_roundtrip.
Example C55_case :
  let m := FwdMsg 7 12 (Some (WZRemScore (bs "z") (Excluded (f64_of_Z 3), Unbounded) false)) in
  let m2 := FwdMsg 8 12 (Some (WKvpSet (bs "h") [(bs "f", SInteger (-4))] NxXx_Nx)) in
  sendable m /\ sendable m2 /\ receive_cmd 9 (put_msgs [m; msg_none; m2]) = ([m; msg_none; m2], []).
Proof.
  split; [|split; [|vm_compute; reflexivity]].
  - split; [vm_compute; reflexivity|]. split; [vm_compute; reflexivity|]. cbn. split; [vm_compute; reflexivity|].
    split; [vm_compute; reflexivity|done].
  - split; [vm_compute; reflexivity|]. split; [vm_compute; reflexivity|]. cbn. split; [vm_compute; reflexivity|].
    split; [vm_compute; reflexivity|]. apply List.Forall_cons; [|apply List.Forall_nil]. cbn.
    split; [vm_compute; reflexivity|]. unfold fits_i64. lia.
Qed.
