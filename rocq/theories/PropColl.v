(** C24-C30, C68: lists, hashes and sets. *)
From Verif Require Import CollFacts.

(** ** C24: a list is a sequence.  For every history in which the commands on [k] are the list operations
    [ops] (interleaved with any commands on other keys), starting from a list, or no key, under [k]: the
    stored list and all replies are those of the sequence machine [list_step].  [e] is the deadline of the
    key; the history must stay before it. *)
Theorem C24_lists_are_sequences (ho : horder) (k : bytes) (h : list (N * cmd)) (ops : list list_op) (b : db)
    (e : N) (s : option (list scalar)) :
  map snd (on_key k h) = map (list_cmd k) ops ->
  Forall (fun p => lives (fst p) e) (on_key k h) ->
  (s = None -> e = 0%N) ->
  db_contents b k = stored DDeque e s ->
  db_contents (fst (db_run ho h b)) k = stored DDeque e (fst (run_ops list_step ops s)) /\
  replies_on k h (snd (db_run ho h b)) = snd (run_ops list_step ops s).
Proof. exact (object_run _ _ _ _ k _ ho (list_sim k ho) h ops b e s). Qed.
Print Assumptions C24_lists_are_sequences.

Definition ex_ops : list list_op :=
  [LPushX true [SInteger 9]; LPush true [SInteger 1; SInteger 2]; LPush false [SInteger 3]; LRange (-2) 100;
   LPop false 2; LLen; LPop true 5].
(** The same operations on the key "l", in a history with a command on another key in between. *)
Definition ex_lh : list (N * cmd) :=
  map (fun o => (5%N, list_cmd (bs "l") o)) (firstn 3 ex_ops) ++
  [(6%N, CWrite (WDel (bs "other")))] ++
  map (fun o => (7%N, list_cmd (bs "l") o)) (skipn 3 ex_ops).
Example C24_case :
  map snd (on_key (bs "l") ex_lh) = map (list_cmd (bs "l")) ex_ops /\
  Forall (fun p => lives (fst p) 0) (on_key (bs "l") ex_lh) /\
  db_contents db_empty (bs "l") = stored DDeque 0 None /\
  run_ops list_step ex_ops None =
    (Some [], [OOk (PLens (Lens 0 0)); OOk (PLens (Lens 0 2)); OOk (PLens (Lens 2 3));
               OOk (PScalars [SInteger 1; SInteger 3]);
               OOk (PScalars [SInteger 3; SInteger 1]); OOk (PNat 1); OOk (PScalars [SInteger 2])]).
Proof.
  split; [by vm_compute|]. split; [|split; by vm_compute].
  vm_compute. repeat constructor.
Qed.

(** ** C25: LRANGE returns the elements at the positions between the two indices, inclusive, negative indices
    counting from the end. *)
Theorem C25_lrange (ho : horder) (now : N) (k : bytes) (a b : Z) (l : list scalar) (e : N) (d : dict) :
  contents d k = Some (DDeque l, e) -> lives now e ->
  snd (rapply ho now (RDequeRange k a b) d) = OOk (PScalars (slice a b l)).
Proof.
  intros C L. assert (N : Some l = None -> e = 0%N) by done.
  exact (proj1 (proj2 (list_sim k ho now (LRange a b) d e (Some l) L N C))).
Qed.
Print Assumptions C25_lrange.
(** What [slice] contains, element by element. *)
Theorem C25_slice_elements {A} (a b : Z) (l : list A) (j : nat) :
  slice a b l !! j =
  (let lo := Z.max 0 (from_end (length l) a) in
   if decide (lo + Z.of_nat j <= from_end (length l) b)%Z then l !! Z.to_nat (lo + Z.of_nat j) else None).
Proof.
  unfold slice. rewrite positions_interval. cbv zeta.
  set (a' := from_end (length l) a). set (b' := from_end (length l) b). clearbody a' b'.
  destruct (decide (Z.max 0 a' + Z.of_nat j <= b')%Z) as [H|H].
  - rewrite lookup_take by lia. rewrite lookup_drop. f_equal. lia.
  - apply lookup_take_ge. lia.
Qed.
Print Assumptions C25_slice_elements.
Example C25_case :
  slice (-3) 9223372036854775807 [1; 2; 3; 4; 5] = [3; 4; 5] /\ slice (-100) 1 [1; 2; 3] = [1; 2] /\
  slice 2 1 [1; 2; 3] = [] /\ slice 5 6 [1; 2; 3] = [].
Proof. vm_compute. auto. Qed.

(** ** C26: RPUSH and LPOP form a FIFO queue: over every history the elements delivered, followed by the ones
    still queued, are the initial ones followed by the ones pushed - nothing lost, duplicated or reordered. *)
Theorem C26_fifo (ho : horder) (k : bytes) (h : list (N * cmd)) (ops : list list_op) (b : db)
    (e : N) (s : option (list scalar)) :
  Forall queue_op ops ->
  map snd (on_key k h) = map (list_cmd k) ops ->
  Forall (fun p => lives (fst p) e) (on_key k h) ->
  (s = None -> e = 0%N) ->
  db_contents b k = stored DDeque e s ->
  exists s', db_contents (fst (db_run ho h b)) k = stored DDeque e s' /\
    all_popped (replies_on k h (snd (db_run ho h b))) ++ default [] s' = default [] s ++ all_pushed ops.
Proof.
  intros Q O L N C. destruct (object_run _ _ _ _ k _ ho (list_sim k ho) h ops b e s O L N C) as [R1 R2].
  destruct (run_ops list_step ops s) as [s' rs] eqn:E. cbn [fst snd] in *.
  exists s'. split; [done|]. rewrite R2. by apply queue_run.
Qed.
Print Assumptions C26_fifo.
(** LPUSH then LPOP: last in, first out; the list below is untouched. *)
Theorem C26_lifo (es l : list scalar) :
  snd (run_ops list_step [LPush true es; LPop true (N.of_nat (length es))] (Some l)) =
    [OOk (PLens (Lens (length l) (length l + length es))); OOk (PScalars (rev es))] /\
  fst (run_ops list_step [LPush true es; LPop true (N.of_nat (length es))] (Some l)) = Some l.
Proof.
  cbn [run_ops list_step fst snd default]. unfold id. rewrite pushed_length.
  replace (N.to_nat (N.min (N.of_nat (length es)) (N.of_nat (length l + length es)))) with (length (rev es)) by (rewrite rev_length; lia).
  unfold popped, unpopped, pushed. by rewrite take_app, drop_app.
Qed.
Print Assumptions C26_lifo.
(** A pop of [n] takes min(n, length) elements and removes exactly those. *)
Theorem C26_pop_count (lf : bool) (n : N) (l : list scalar) :
  exists out rest, list_step (LPop lf n) (Some l) = (Some rest, OOk (PScalars out)) /\
    N.of_nat (length out) = N.min n (N.of_nat (length l)) /\
    l = (if lf then out ++ rest else rest ++ rev out).
Proof.
  cbn [list_step]. set (c := N.to_nat (N.min n (N.of_nat (length l)))).
  exists (popped lf c l), (unpopped lf c l). split; [done|]. split.
  - unfold popped. destruct lf; rewrite firstn_length, ?rev_length; lia.
  - unfold popped, unpopped. destruct lf; [by rewrite firstn_skipn|].
    rewrite <- rev_app_distr, firstn_skipn. by rewrite rev_involutive.
Qed.
Print Assumptions C26_pop_count.
Example C26_case :
  let ops := [LPush false [SInteger 1; SInteger 2]; LPop true 1; LPush false [SInteger 3]; LPop true 9] in
  Forall queue_op ops /\ all_popped (snd (run_ops list_step ops None)) = [SInteger 1; SInteger 2; SInteger 3].
Proof. vm_compute. split; [repeat constructor|done]. Qed.

(** ** C27: removing the last element should remove the key.  It does not: the empty collection answers EXISTS and
    keeps its type, for lists, hashes, sets and sorted sets. *)
Theorem C27_empty_collections_disappear_refuted :
  forall ws, ws ∈ [[WDequePush (bs "k") [SInteger 1] true NxXx_None; WDequePop (bs "k") 1 true];
                   [WKvpSet (bs "k") [(bs "f", SInteger 1)] NxXx_None; WKvpDel (bs "k") [bs "f"]];
                   [WSetAdd (bs "k") [bs "m"]; WSetRemove (bs "k") [bs "m"]];
                   [WZAdd (bs "k") [Node f64_zero (bs "m")] NxXx_None GtLt_None false; WZRemove (bs "k") [bs "m"]]] ->
  exists x, empty_collection x /\
    snd (db_run horder_default (map (fun w => (1%N, CWrite w)) ws ++ [(1%N, CRead (RGet (bs "k"))); (1%N, CRead (RExists (bs "k"))); (1%N, CWrite (WIncr (bs "k") 1))]) db_empty)
      !! 2 = Some (OOk (PData x)) /\
    snd (db_run horder_default (map (fun w => (1%N, CWrite w)) ws ++ [(1%N, CRead (RGet (bs "k"))); (1%N, CRead (RExists (bs "k"))); (1%N, CWrite (WIncr (bs "k") 1))]) db_empty)
      !! 3 = Some (OOk (PBool true)) /\
    snd (db_run horder_default (map (fun w => (1%N, CWrite w)) ws ++ [(1%N, CRead (RGet (bs "k"))); (1%N, CRead (RExists (bs "k"))); (1%N, CWrite (WIncr (bs "k") 1))]) db_empty)
      !! 4 = Some (OErr EWrongType).
Proof.
  intros ws H. repeat (apply elem_of_cons in H as [->|H]); [| | | |by apply elem_of_nil in H].
  - exists (DDeque []). split; [unfold empty_collection; auto|]. split; [|split]; apply (bool_decide_eq_true_1 _); vm_compute; reflexivity.
  - exists (DKvp ∅). split; [unfold empty_collection; auto|]. split; [|split]; apply (bool_decide_eq_true_1 _); vm_compute; reflexivity.
  - exists (DSet ∅). split; [unfold empty_collection; auto|]. split; [|split]; apply (bool_decide_eq_true_1 _); vm_compute; reflexivity.
  - exists (DZSet ∅ []). split; [unfold empty_collection; auto|]. split; [|split]; apply (bool_decide_eq_true_1 _); vm_compute; reflexivity.
Qed.
Print Assumptions C27_empty_collections_disappear_refuted.
(** What remains true: the reads of its own type see the empty collection like an absent key. *)
Theorem C27_empty_reads_like_absent_partial (ho : horder) (now : N) (r : rreq) (d : dict) (x : data) (e : N) :
  contents d (rkey r) = Some (x, e) -> lives now e -> empty_collection x -> rkind r = Some (kind_of x) ->
  snd (rapply ho now r d) = snd (rapply ho now r (without (rkey r) d)).
Proof. exact (empty_reads ho now r d x e). Qed.
Print Assumptions C27_empty_reads_like_absent_partial.

(** ** C28, C29, C68: a hash is a finite map.  [num] is how stored scalars are read by HINCRBY; it is right on
    every integer and refuses everything that does not begin like a number. *)
Theorem C28_hashes_are_maps :
  exists num, reads_integers num /\
  forall (ho : horder) (k : bytes) (h : list (N * cmd)) (ops : list hash_op) (b : db)
    (e : N) (s : option (gmap bytes scalar)),
  map snd (on_key k h) = map (hash_cmd k) ops ->
  Forall (fun p => lives (fst p) e) (on_key k h) ->
  (s = None -> e = 0%N) ->
  db_contents b k = stored DKvp e s ->
  db_contents (fst (db_run ho h b)) k = stored DKvp e (fst (run_ops (hash_step num) ops s)) /\
  replies_on k h (snd (db_run ho h b)) = snd (run_ops (hash_step num) ops s).
Proof.
  exists read_int. split; [exact read_int_ok|]. intros ho k h ops b e s.
  exact (object_run _ _ _ _ k _ ho (hash_sim k ho) h ops b e s).
Qed.
Print Assumptions C28_hashes_are_maps.
(** HSET: of several values for one field the last counts; fields not named keep their value. *)
Theorem C28_hset_lookup (es : list (bytes * scalar)) (m : gmap bytes scalar) (f : bytes) :
  (bindings es ∪ m) !! f =
  match list.last (List.filter (fun p => bool_decide (fst p = f)) es) with Some (_, x) => Some x | None => m !! f end.
Proof.
  unfold bindings. rewrite lookup_union.
  induction es as [|[g x] es IH] using rev_ind; [cbn; rewrite lookup_empty; by rewrite (left_id_L None _)|].
  rewrite rev_app_distr, filter_app. cbn [rev app list_to_map foldr List.filter fst snd].
  destruct (bool_decide_reflect (g = f)) as [->|N].
  - cbn. rewrite lookup_insert, last_snoc. by destruct (m !! f).
  - cbn. rewrite lookup_insert_ne by done. rewrite app_nil_r. exact IH.
Qed.
Print Assumptions C28_hset_lookup.
Example C28_case :
  let ops := [HSet [(bs "f", SInteger 1); (bs "g", SInteger 2); (bs "f", SInteger 3)]; HDel [bs "g"; bs "g"; bs "x"];
              HGet [bs "f"; bs "g"]; HIncr (bs "f") 4; HSetNx (bs "f") SNull; HExists (bs "g")] in
  snd (run_ops (hash_step read_int) ops None) =
  [OOk (PLens (Lens 0 2)); OOk (PLens (Lens 2 1)); OOk (PScalars [SInteger 3; SNull]); OOk (PInt 7);
   OOk (PLens (Lens 1 1)); OOk (PBool false)].
Proof. vm_compute. reflexivity. Qed.

(** ** C29: HSETNX stores exactly when the field is absent. *)
Theorem C29_hsetnx (now : N) (k f : bytes) (x : scalar) (d : dict) (e : N) (s : option (gmap bytes scalar)) :
  lives now e -> (s = None -> e = 0%N) -> contents d k = stored DKvp e s ->
  let '(d', r, u) := wapply now (WKvpSet k [(f, x)] NxXx_Nx) d in
  let m := default ∅ s in
  match m !! f with
  | Some _ => contents d' k = contents d k /\ r = OOk (PLens (Lens (size m) (size m)))
  | None => contents d' k = Some (DKvp (<[f := x]> m), e) /\ r = OOk (PLens (Lens (size m) (size m + 1)))
  end.
Proof.
  intros L N C. pose proof (hash_sim k horder_default now (HSetNx f x) d e s L N C) as (S1 & S2 & _).
  cbn [hash_cmd flat_cmd hash_step] in S1, S2.
  destruct (wapply now (WKvpSet k [(f, x)] NxXx_Nx) d) as [[d' r] u]. cbn [fst snd] in *.
  destruct (default ∅ s !! f); cbn [fst snd] in *; (split; [|done]); rewrite ?C; done.
Qed.
Print Assumptions C29_hsetnx.
Example C29_case : contents dict_empty (bs "h") = stored DKvp 0 None /\
  contents (Dict 0 {[bs "h" := Value (DKvp {[bs "f" := SNull]}) 50 0]}) (bs "h") = stored DKvp 50 (Some {[bs "f" := SNull]}).
Proof. split; vm_compute; reflexivity. Qed.

(** ** C68: HINCRBY.  Missing: on 64-bit overflow the code wraps instead of failing. *)
Theorem C68_hincrby_partial (now : N) (k f : bytes) (n : Z) (d : dict) (e : N) (s : option (gmap bytes scalar)) :
  lives now e -> (s = None -> e = 0%N) -> contents d k = stored DKvp e s ->
  let '(d', r, u) := wapply now (WKvpIncr k f n) d in
  let m := default ∅ s in
  match m !! f with
  | None => r = OOk (PInt n) /\ contents d' k = Some (DKvp (<[f := SInteger n]> m), e)
  | Some x =>
      (forall z, stands_for (DScalar x) z -> (- 2 ^ 63 <= z + n < 2 ^ 63)%Z ->
         r = OOk (PInt (z + n)) /\ contents d' k = Some (DKvp (<[f := SInteger (z + n)]> m), e)) /\
      (forall t, (x = SBytes t \/ x = SString t) -> no_number_prefix t ->
         r = OErr ENotInt /\ contents d' k = contents d k)
  end.
Proof.
  intros L N C. pose proof (hash_sim k horder_default now (HIncr f n) d e s L N C) as (S1 & S2 & _).
  cbn [hash_cmd flat_cmd hash_step] in S1, S2.
  destruct (wapply now (WKvpIncr k f n) d) as [[d' r] u]. cbn [fst snd] in *.
  destruct read_int_ok as (R1 & R2 & _).
  destruct (default ∅ s !! f) as [x|]; [|done]. split.
  - intros z Hz B. rewrite (R1 _ _ Hz) in S1, S2. cbn [fst snd] in *.
    replace (as_i64 (z + n)) with (z + n)%Z in * by (unfold as_i64; lia). done.
  - intros t Ht P. destruct (R2 t P) as [P1 P2].
    destruct Ht as [-> | ->]; rewrite ?P1, ?P2 in S1, S2; cbn [fst snd] in *; by rewrite S1, C.
Qed.
Print Assumptions C68_hincrby_partial.
Example C68_case : stands_for (DScalar (SBytes (bs "-7"))) (-7) /\ no_number_prefix (bs "x7").
Proof.
  split; [split; [unfold i64_min, i64_max, z_two63; lia|by right; left]|]. cbn. repeat split; try done. lia.
Qed.
Theorem C68_hincrby_overflow_refuted :
  exists d, contents d (bs "h") = Some (DKvp {[bs "f" := SInteger (2 ^ 63 - 1)]}, 0%N) /\
    snd (fst (wapply 0 (WKvpIncr (bs "h") (bs "f") 1) d)) = OOk (PInt (- 2 ^ 63)).
Proof.
  exists (Dict 0 {[bs "h" := Value (DKvp {[bs "f" := SInteger (2 ^ 63 - 1)]}) 0 0]}).
  split; vm_compute; reflexivity.
Qed.
Print Assumptions C68_hincrby_overflow_refuted.

(** ** C30: a set is a finite set of byte strings, over every history. *)
Theorem C30_sets_are_sets (ho : horder) (k : bytes) (h : list (N * cmd)) (ops : list set_op) (b : db)
    (e : N) (s : option (gset bytes)) :
  map snd (on_key k h) = map (set_cmd k) ops ->
  Forall (fun p => lives (fst p) e) (on_key k h) ->
  (s = None -> e = 0%N) ->
  db_contents b k = stored DSet e s ->
  db_contents (fst (db_run ho h b)) k = stored DSet e (fst (run_ops set_step ops s)) /\
  replies_on k h (snd (db_run ho h b)) = snd (run_ops set_step ops s).
Proof. exact (object_run _ _ _ _ k _ ho (set_sim k ho) h ops b e s). Qed.
Print Assumptions C30_sets_are_sets.
Example C30_case :
  snd (run_ops set_step [SAdd [bs "a"; bs "b"; bs "a"]; SAdd [bs "b"; bs "c"]; SRem [bs "a"; bs "z"]; SIsMember [bs "a"; bs "c"]] None) =
  [OOk (PLens (Lens 0 2)); OOk (PLens (Lens 2 3)); OOk (PLens (Lens 3 2)); OOk (PBools [false; true])].
Proof. vm_compute. reflexivity. Qed.
