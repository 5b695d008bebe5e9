(** C09, C10, C20, C23, C67, C70: the sharded database. *)
From Verif Require Import DbFacts.

(** A history used in the examples. *)
Definition ex_h : list (N * cmd) :=
  [(10, CWrite (WSet (bs "a") (SBytes (bs "1")) (Specific 0) NxXx_None));
   (11, CWrite (WIncr (bs "a") 4));
   (12, CWrite (WSetAdd (bs "s") [bs "x"; bs "y"]));
   (13, CRead (RGet (bs "a")));
   (14, CWrite (WIncr (bs "s") 1));
   (15, CWrite (WIncr (bs "a") (-2)))]%N.

(** ** C09: the sharded database answers every history like one flat dictionary and holds the same keys,
    values, deadlines and access logs. *)
Theorem C09_sharding_invisible (ho : horder) (h : list (N * cmd)) (b : db) (d : dict) :
  (forall k, db_raw b k = inner d !! k) ->
  snd (db_run ho h b) = snd (flat_run ho h d) /\
  forall k, db_raw (fst (db_run ho h b)) k = inner (fst (flat_run ho h d)) !! k.
Proof. exact (db_run_refines ho h b d). Qed.
Print Assumptions C09_sharding_invisible.
(** In particular from the empty database. *)
Theorem C09_sharding_invisible_from_empty (ho : horder) (h : list (N * cmd)) :
  snd (db_run ho h db_empty) = snd (flat_run ho h dict_empty).
Proof. exact (proj1 (db_run_refines ho h db_empty dict_empty same_store_empty)). Qed.
Print Assumptions C09_sharding_invisible_from_empty.
Example C09_case :
  (forall k, db_raw db_empty k = inner dict_empty !! k) /\
  get_slot (bs "a") <> get_slot (bs "s") /\
  snd (db_run horder_default ex_h db_empty) =
    [OOk (PData DNull); OOk (PInt 5); OOk (PLens (Lens 0 2)); OOk (PData (DInteger 5)); OErr EWrongType; OOk (PInt 3)].
Proof. split; [done|]. split; [vm_compute; discriminate|vm_compute; reflexivity]. Qed.

(** ** C10: after SET k x with deadline e, GET k answers x until e, whatever commands run in between as long as
    none writes k; the SET changes no other key. *)
Theorem C10_read_latest_write (ho : horder) (now : N) (k : bytes) (x : scalar) (e : N) (b : db)
    (h : list (N * cmd)) (t : N) :
  no_write_to k h ->
  let b1 := fst (db_write now (WSet k x (Specific e) NxXx_None) b) in
  let b2 := fst (db_run ho h b1) in
  snd (db_read ho t (RGet k) b2) = OOk (PData (if decide (lives t e) then DScalar x else DNull)) /\
  db_contents b2 k = Some (DScalar x, e) /\
  (forall k', k' <> k -> db_raw b1 k' = db_raw b k').
Proof. exact (read_latest_write ho now k x e b h t). Qed.
Print Assumptions C10_read_latest_write.
Example C10_case : no_write_to (bs "k") ex_h /\ no_write_to (bs "s") (firstn 2 ex_h).
Proof. unfold no_write_to, ex_h. split; cbn [firstn]; repeat constructor; cbn; done. Qed.

(** ** C20: a counter from which any number of clients count loses no update: only INCRBYs write it, in any
    interleaving with each other and with any commands on other keys and any reads. *)
Theorem C20_counters_lose_no_update (ho : horder) (h : list (N * cmd)) (b : db) (k : bytes) (z : Z)
    (clients : list (list Z)) :
  (- 2 ^ 63 <= z < 2 ^ 63)%Z ->
  db_contents b k = Some (DInteger z, 0%N) ->
  only_increments k h ->
  interleaves clients (increments k h) ->
  db_contents (fst (db_run ho h b)) k = Some (DInteger (as_i64 (z + sumZ (map sumZ clients))), 0%N) /\
  increment_replies k h (snd (db_run ho h b)) = map (fun t => OOk (PInt t)) (totals z (increments k h)).
Proof.
  intros R C O I. rewrite <- (interleaves_sum _ _ I). apply counter_run; [done|].
  replace (as_i64 z) with z; [done|]. unfold as_i64. lia.
Qed.
Print Assumptions C20_counters_lose_no_update.
Example C20_case :
  let b := fst (db_run horder_default [(1%N, CWrite (WIncr (bs "a") 7))] db_empty) in
  let h := tail ex_h in
  db_contents b (bs "a") = Some (DInteger 7, 0%N) /\ only_increments (bs "a") h /\
  interleaves [[4]; [-2]]%Z (increments (bs "a") h) /\
  db_contents (fst (db_run horder_default h b)) (bs "a") = Some (DInteger 9, 0%N).
Proof.
  split; [vm_compute; reflexivity|]. split; [|split; [|vm_compute; reflexivity]].
  - unfold only_increments, ex_h. cbn [tail]. repeat constructor; cbn; intros H; eauto; done.
  - change (increments _ _) with [4; -2]%Z. apply (il_step [] 4%Z [] [[-2]%Z]). apply (il_step [[]] (-2)%Z [] []).
    constructor. by repeat constructor.
Qed.

(** ** C23: a command changes nothing of any other key: value, deadline and access log stay bit for bit the
    same, in whatever slot the key lives; also over whole histories. *)
Theorem C23_keys_do_not_interfere (ho : horder) (now : N) (c : cmd) (b : db) (k : bytes) :
  k <> ckey c -> db_raw (fst (db_cmd ho now c b)) k = db_raw b k.
Proof. exact (db_cmd_other ho now c b k). Qed.
Print Assumptions C23_keys_do_not_interfere.
Theorem C23_keys_do_not_interfere_history (ho : horder) (h : list (N * cmd)) (b : db) (k : bytes) :
  no_cmd_on k h -> db_raw (fst (db_run ho h b)) k = db_raw b k.
Proof. exact (db_run_no_cmd ho h b k). Qed.
Print Assumptions C23_keys_do_not_interfere_history.
(** Also inside one slot: a command on one of two keys of the same slot leaves the other alone. *)
Example C23_case :
  get_slot (bs "{t}1") = get_slot (bs "{t}2") /\ bs "{t}1" <> bs "{t}2" /\ no_cmd_on (bs "z") ex_h.
Proof.
  split; [by vm_compute|]. split; [done|]. unfold no_cmd_on, ex_h. repeat constructor; cbn; done.
Qed.

(** ** C67: after FLUSHALL every key is absent and stays absent until it is written. *)
Theorem C67_flushall_empties (ho : horder) (b : db) (h : list (N * cmd)) (k : bytes) :
  db_raw (db_flushall b) k = None /\
  (no_write_to k h -> db_contents (fst (db_run ho h (db_flushall b))) k = None).
Proof.
  split; [apply flushall_empty|]. intros H. rewrite db_run_no_write by done.
  rewrite db_raw_contents. by rewrite flushall_empty.
Qed.
Print Assumptions C67_flushall_empties.
Example C67_case :
  let b := fst (db_run horder_default ex_h db_empty) in
  db_raw b (bs "a") <> None /\ db_raw (db_flushall b) (bs "a") = None /\ no_write_to (bs "q") ex_h.
Proof.
  split; [vm_compute; discriminate|]. split; [vm_compute; reflexivity|].
  unfold no_write_to, ex_h. repeat constructor; cbn; done.
Qed.

(** ** C70: in a history without panicking commands the writes of each slot, successful or not, are forwarded once
    each, in order, numbered consecutively from the slot's write id; reads consume nothing. *)
Theorem C70_sequence_gap_free (ho : horder) (h : list (N * cmd)) (b : db) (i : N) :
  (write_id (b i) < 2 ^ 64)%N ->
  Forall (fun r => r <> OPanic) (snd (db_run ho h b)) ->
  List.filter (fun m => (fm_slot m =? i)%N) (db_forwarded ho h b) =
    zip_with (fun id w => FwdMsg id i (to_write_cmd w))
      (ids_from (write_id (b i)) (length (writes_in i h))) (writes_in i h)
  /\ write_id (fst (db_run ho h b) i) = ((write_id (b i) + N.of_nat (length (writes_in i h))) mod 2 ^ 64)%N.
Proof. exact (forwarded_seq ho h b i). Qed.
Print Assumptions C70_sequence_gap_free.
Example C70_case :
  Forall (fun r => r <> OPanic) (snd (db_run horder_default ex_h db_empty)) /\
  map fm_id (List.filter (fun m => (fm_slot m =? get_slot (bs "s"))%N) (db_forwarded horder_default ex_h db_empty)) = [1; 2]%N.
Proof. split; [|vm_compute; reflexivity]. vm_compute. repeat constructor; discriminate. Qed.

(** With a panicking command the sequence has a gap: the number is consumed but nothing is forwarded. *)
Theorem C70_panic_leaves_gap_refuted :
  exists h, map fm_id (db_forwarded horder_default h db_empty) = [1; 3]%N.
Proof.
  exists [(1%N, CWrite (WZAdd (bs "z") [Node f64_zero (bs "a")] NxXx_None GtLt_None false));
          (2%N, CWrite (WZAdd (bs "z") [Node S754_nan (bs "b")] NxXx_None GtLt_None false));
          (3%N, CWrite (WZRemove (bs "z") [bs "a"]))].
  vm_compute. reflexivity.
Qed.
Print Assumptions C70_panic_leaves_gap_refuted.
