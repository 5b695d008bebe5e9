(** C93-C99: every request does what it means. *)
From Verif Require Export MeaningFacts.
From Verif Require Import WireFacts CollFacts BincodeFacts SerdeFacts ZsetFacts ZsetInv SimpleFacts CmdFacts TypeFacts TextFacts DbFacts VisitFacts.
From Verif Require Export PropExact PropServer.

(** A state for the examples, at time 5. *)
Definition ex_full : effects := fst (fst (ex_run [
  [bs "RPUSH"; bs "l"; bs "a"; bs "b"; bs "c"]; [bs "HSET"; bs "h"; bs "f"; bs "7x"; bs "g"; bs "q"]; [bs "SADD"; bs "s"; bs "u"; bs "v"];
  [bs "ZADD"; bs "z"; bs "3"; bs "p"; bs "1"; bs "q"; bs "2"; bs "r"]; [bs "ZADD"; bs "y"; bs "1"; bs "m"; bs "1"; bs "n"; bs "1"; bs "o"];
  [bs "SET"; bs "t"; bs "-41z"; bs "EX"; bs "100"]; [bs "SET"; bs "w"; bs "zz"]])).
Definition ex_before (k : bytes) := before (fun _ => 5%N) alone ex_full k.
Definition ex_reply (q : request) := snd (serve_request ex_env (fun _ => 5%N) alone q ex_full).
Ltac computes := apply (bool_decide_eq_true_1 _); vm_compute; reflexivity.

(** ** C93: lists *)
Theorem C93_lists en clock oth q e k f s d : list_meaning en q = Some (k, f) ->
  before clock oth e k = stored DDeque d s -> (s = None -> d = 0%N) ->
  does en clock oth q e k (stored DDeque d (fst (f s))) (eq (snd (f s))).
Proof.
  intros H B N.
  destruct q; cbn [list_meaning] in H; try discriminate H; injection H as <- <-.
  - eapply (list_does _ _ _ _ _ _ LLen); [done..|]. cbn. eexists. split; [reflexivity|]. by rewrite len_counted.
  - eapply (list_does _ _ _ _ _ _ (LPop true n)); [done..| |]; (destruct s as [l|]; cbn [fst snd list_step]; [|try done; try by eexists]).
    + by rewrite unpopped_left.
    + eexists. split; [reflexivity|]. by rewrite popped_left, <- scalars_shown.
  - eapply (list_does _ _ _ _ _ _ (LPush true xs)); [done..|]. cbn. eexists. split; [reflexivity|]. by rewrite len_counted.
  - eapply (list_does _ _ _ _ _ _ (LPushX true xs)); [done..| |]; (destruct s as [l|]; cbn [fst snd list_step]; try done);
      eexists; (split; [reflexivity|]); by rewrite len_counted.
  - eapply (list_does _ _ _ _ _ _ (LRange a b)); [done..|]. cbn. eexists. split; [reflexivity|]. by rewrite <- scalars_shown.
  - eapply (list_does _ _ _ _ _ _ (LPop false n)); [done..| |]; (destruct s as [l|]; cbn [fst snd list_step]; [|try done; try by eexists]).
    + by rewrite unpopped_right.
    + eexists. split; [reflexivity|]. by rewrite popped_right, <- scalars_shown.
  - eapply (list_does _ _ _ _ _ _ (LPush false xs)); [done..|]. cbn. eexists. split; [reflexivity|]. by rewrite len_counted.
  - eapply (list_does _ _ _ _ _ _ (LPushX false xs)); [done..| |]; (destruct s as [l|]; cbn [fst snd list_step]; try done);
      eexists; (split; [reflexivity|]); by rewrite len_counted.
Qed.
Print Assumptions C93_lists.
Example C93_case : ex_before (bs "l") = stored DDeque 0 (Some [SBytes (bs "a"); SBytes (bs "b"); SBytes (bs "c")]) /\
  ex_before (bs "no") = stored DDeque 0 None /\ ex_reply (QRpop (bs "l") 2) = inl (FArray [FBulk (bs "c"); FBulk (bs "b")]).
Proof. repeat split; vm_compute; done. Qed.

(** ** C94: hashes *)
Lemma hashes_do en clock oth q e k f s d : horder_ok (e_ho en) ->
  hash_meaning en read_int q = Some (k, f) ->
  before clock oth e k = stored DKvp d s -> (s = None -> d = 0%N) ->
  does en clock oth q e k (stored DKvp d (fst (f s))) (snd (f s)).
Proof.
  intros HO H B N.
  destruct q; cbn [hash_meaning] in H; try discriminate H; injection H as <- <-.
  - eapply (hash_does _ _ _ _ _ _ (HDel fs)); [done..|]. cbn. eexists. split; [reflexivity|].
    set (m := default ∅ s). pose proof (keys_size fs m). rewrite <- (diff_counted (size m - size ((list_to_set fs : gset bytes) ∩ dom m))). do 2 f_equal. lia.
  - eapply (hash_does _ _ _ _ _ _ (SpecColl.HExists f0)); [done..|]. cbn. eexists. split; [reflexivity|].
    unfold yes_no, bool_frame. do 2 f_equal. rewrite (bool_decide_ext _ _ (elem_of_dom (default ∅ s) f0)). done.
  - eapply (hash_does _ _ _ _ _ _ (SpecColl.HGet [f0])); [done..|]. cbn. eexists. split; [reflexivity|]. by rewrite <- scalar_shown.
  - eapply (hash_does _ _ _ _ _ _ SpecColl.HGetAll); [done..|]. cbn. eexists. split; [reflexivity|].
    eexists. split; [apply HO|]. do 2 f_equal.
  - eapply (hash_does _ _ _ _ _ _ (HIncr f0 n)); [done..| |]; cbn; destruct (default ∅ s !! f0) as [x|]; cbn; try done.
    + destruct (read_int x) as [z|[]]; done.
    + pose proof (read_int_refuses x) as RF. destruct (read_int x) as [z|er]; [by eexists|].
      destruct (RF er eq_refl) as [->| ->]; done.
    + by eexists.
  - eapply (hash_does _ _ _ _ _ _ (SpecColl.HGet fs)); [done..|]. cbn. eexists. split; [reflexivity|]. by rewrite map_map.
  - eapply (hash_does _ _ _ _ _ _ (SpecColl.HSet es)); [done..|]. cbn. eexists. split; [reflexivity|]. by rewrite diff_counted.
  - eapply (hash_does _ _ _ _ _ _ (HSetNx f0 x)); [done..| |]; cbn; destruct (default ∅ s !! f0) as [y|]; cbn; try done;
      (eexists; split; [reflexivity|]); [by rewrite <- (diff_counted (size (default ∅ s)) 0), Nat.add_0_r|by rewrite diff_counted].
Qed.
Theorem C94_hashes : exists num, reads_integers num /\ forall en clock oth q e k f s d, horder_ok (e_ho en) ->
  hash_meaning en num q = Some (k, f) ->
  before clock oth e k = stored DKvp d s -> (s = None -> d = 0%N) ->
  does en clock oth q e k (stored DKvp d (fst (f s))) (snd (f s)).
Proof. exists read_int. split; [apply read_int_ok|]. exact hashes_do. Qed.
Print Assumptions C94_hashes.
Example C94_case : ex_before (bs "h") = stored DKvp 0 (Some {[bs "f" := SBytes (bs "7x"); bs "g" := SBytes (bs "q")]}) /\
  ex_reply (QHincrby (bs "h") (bs "f") 5) = inl (FInteger 12) /\ ex_reply (QHincrby (bs "h") (bs "g") 5) = inl not_integer.
Proof. split; [computes|]. split; vm_compute; done. Qed.

(** ** C95: sets *)
Theorem C95_sets en clock oth q e k f s d : horder_ok (e_ho en) -> set_meaning_of q = Some (k, f) ->
  before clock oth e k = stored DSet d s -> (s = None -> d = 0%N) ->
  does en clock oth q e k (stored DSet d (fst (f s))) (snd (f s)).
Proof.
  intros HO H B N. destruct q; cbn [set_meaning_of] in H; try discriminate H; injection H as <- <-.
  - eapply (set_does _ _ _ _ _ _ (SpecColl.SAdd ms)); [done..|]. cbn. eexists. split; [reflexivity|].
    by rewrite union_size, diff_counted.
  - eapply (set_does _ _ _ _ _ _ (SpecColl.SIsMember [m])); [done..|]. cbn. by eexists.
  - eapply (set_does _ _ _ _ _ _ SpecColl.SMembers); [done..|]. cbn. eexists. split; [reflexivity|].
    eexists. split; [by apply set_order_elems|]. done.
  - eapply (set_does _ _ _ _ _ _ (SpecColl.SIsMember ms)); [done..|]. cbn. eexists. split; [reflexivity|]. by rewrite map_map.
  - eapply (set_does _ _ _ _ _ _ (SpecColl.SRem ms)); [done..| |]; (destruct s as [x|]; cbn; [|try done]).
    + done.
    + eexists. split; [reflexivity|]. rewrite (rest_size x (list_to_set ms)) at 1. by rewrite diff_counted.
    + eexists. split; [reflexivity|]. rewrite intersection_empty_r_L, size_empty. by rewrite <- (diff_counted 0 0).
Qed.
Print Assumptions C95_sets.
Example C95_case : ex_before (bs "s") = stored DSet 0 (Some {[bs "u"; bs "v"]}) /\
  ex_reply (QSrem (bs "s") [bs "v"; bs "x"; bs "v"]) = inl (FInteger 1).
Proof. split; [computes|]. vm_compute. done. Qed.

(** ** C96: sorted sets *)
Theorem C96_queries en clock oth q e k sel sc m d : zquery q k sel sc ->
  before clock oth e k = stored zset_data d m -> (m = None -> d = 0%N) -> (forall x, m = Some x -> no_nans x) ->
  does en clock oth q e k (stored zset_data d m) (eq (listed en sc (sel (listing (default ∅ m))))).
Proof.
  intros Q B N Z. assert (OK : zset_ok m) by (destruct m; [by apply Z|done]). destruct Q.
  - eapply (zset_does _ _ _ _ _ _ (ZRange a b (ro_limit o) (ro_rev o))); [|done..|].
    + cbn [plan_of]. rewrite H. by rewrite (two_read int_of lo hi a b (int_read _ _ H0) (int_read _ _ H1)).
    + cbn. eexists. split; reflexivity.
  - eapply (zset_does _ _ _ _ _ _ (ZRange a b None true)); [|done..|].
    + cbn [plan_of]. by rewrite (two_read int_of lo hi a b (int_read _ _ H) (int_read _ _ H0)).
    + cbn. eexists. split; reflexivity.
  - eapply (zset_does _ _ _ _ _ _ (ZRangeByScore (lo, hi) lim false)); [|done..|].
    + cbn [plan_of]. by rewrite (two_read float_bound t u lo hi (score_read _ _ H) (score_read _ _ H0)).
    + cbn. eexists. split; reflexivity.
  - eapply (zset_does _ _ _ _ _ _ (ZRangeByScore (lo, hi) lim true)); [|done..|].
    + cbn [plan_of]. by rewrite (two_read float_bound u t hi lo (score_read _ _ H0) (score_read _ _ H)).
    + cbn. eexists. split; reflexivity.
  - eapply (zset_does _ _ _ _ _ _ (ZRangeByScore (lo, hi) (ro_limit o) false)); [|done..|].
    + cbn [plan_of]. rewrite H, H0. by rewrite (two_read float_bound t u lo hi (score_read _ _ H1) (score_read _ _ H2)).
    + cbn. eexists. split; reflexivity.
  - eapply (zset_does _ _ _ _ _ _ (ZRangeByScore (lo, hi) (ro_limit o) true)); [|done..|].
    + cbn [plan_of]. rewrite H, H0. by rewrite (two_read float_bound u t hi lo (score_read _ _ H2) (score_read _ _ H1)).
    + cbn. eexists. split; reflexivity.
Qed.
Print Assumptions C96_queries.
Definition ex_zz : gmap bytes f64 := {[bs "p" := f64_of_Z 3; bs "q" := f64_of_Z 1; bs "r" := f64_of_Z 2]}.
Example C96_queries_case : ex_before (bs "z") = stored zset_data 0 (Some ex_zz) /\ no_nans ex_zz /\
  zquery (QZrevrangebyscore (bs "z") (bs "3") (bs "(1") true None) (bs "z")
    (fun l => window None (rev (by_score (Excluded (f64_of_Z 1), Included (f64_of_Z 3)) l))) true /\
  ex_reply (QZrevrangebyscore (bs "z") (bs "3") (bs "(1") true None) = inl (FArray (map FSimple [bs "p"; bs "1.5"; bs "r"; bs "1.5"])).
Proof.
  split; [computes|]. split; [|split; [|vm_compute; done]].
  - intros k x H. unfold ex_zz in H.
    apply lookup_insert_Some in H as [[_ <-]|[_ H]]; [done|]. apply lookup_insert_Some in H as [[_ <-]|[_ H]]; [done|].
    apply lookup_singleton_Some in H as [_ <-]. done.
  - constructor.
    + split; [by repeat constructor|]. exists (bs "1"). done.
    + split; [by repeat constructor|]. split; [by vm_compute|]. intros t'. by cbn.
    + by vm_compute.
    + done.
Qed.
Theorem C96_lex_queries en clock oth q e k sel sc m d : lquery q k sel sc ->
  before clock oth e k = stored zset_data d m -> (m = None -> d = 0%N) ->
  (forall x, m = Some x -> no_nans x /\ equal_scores x) ->
  does en clock oth q e k (stored zset_data d m) (eq (listed en sc (sel (listing (default ∅ m))))).
Proof.
  intros Q B N Z. assert (OK : zset_ok m) by (destruct m; [by apply Z|done]).
  assert (ES : forall x, m = Some x -> equal_scores x) by (intros x X; by apply Z). destruct Q.
  - eapply (lex_does _ _ _ _ _ _ (lo, hi) lim false); [|done..|].
    + cbn [plan_of]. by rewrite (two_read lex_bound t u lo hi (lex_read _ _ _ H) (lex_read _ _ _ H0)).
    + cbn. eexists. split; reflexivity.
  - eapply (lex_does _ _ _ _ _ _ (lo, hi) lim true); [|done..|].
    + cbn [plan_of]. by rewrite (two_read lex_bound u t hi lo (lex_read _ _ _ H0) (lex_read _ _ _ H)).
    + cbn. eexists. split; reflexivity.
  - eapply (lex_does _ _ _ _ _ _ (lo, hi) (ro_limit o) false); [|done..|].
    + cbn [plan_of]. rewrite H, H0. by rewrite (two_read lex_bound t u lo hi (lex_read _ _ _ H1) (lex_read _ _ _ H2)).
    + cbn. eexists. split; reflexivity.
  - eapply (lex_does _ _ _ _ _ _ (lo, hi) (ro_limit o) true); [|done..|].
    + cbn [plan_of]. rewrite H, H0. by rewrite (two_read lex_bound u t hi lo (lex_read _ _ _ H2) (lex_read _ _ _ H1)).
    + cbn. eexists. split; reflexivity.
Qed.
Print Assumptions C96_lex_queries.
Definition ex_yy : gmap bytes f64 := {[bs "m" := f64_of_Z 1; bs "n" := f64_of_Z 1; bs "o" := f64_of_Z 1]}.
Example C96_lex_queries_case : ex_before (bs "y") = stored zset_data 0 (Some ex_yy) /\ no_nans ex_yy /\ equal_scores ex_yy /\
  lquery (QZrangebylex (bs "y") (bs "(m") (bs "+") None) (bs "y") (fun l => window None (by_lex (Excluded (bs "m"), Unbounded) l)) false /\
  ex_reply (QZrangebylex (bs "y") (bs "(m") (bs "+") None) = inl (FArray (map FSimple [bs "n"; bs "o"])).
Proof.
  assert (A : forall k x, ex_yy !! k = Some x -> x = f64_of_Z 1).
  { intros k x H. unfold ex_yy in H.
    apply lookup_insert_Some in H as [[_ <-]|[_ H]]; [done|]. apply lookup_insert_Some in H as [[_ <-]|[_ H]]; [done|].
    apply lookup_singleton_Some in H as [_ <-]. done. }
  split; [computes|]. split; [intros k x H; by rewrite (A _ _ H)|].
  split; [intros a b x y Hx Hy; rewrite (A _ _ Hx), (A _ _ Hy); by vm_compute|]. split; [|vm_compute; done].
  constructor; try done; by vm_compute.
Qed.
Theorem C96_removals en clock oth q e k sel m d : zremoval q k sel ->
  before clock oth e k = stored zset_data d m -> (m = None -> d = 0%N) -> (forall x, m = Some x -> no_nans x) ->
  let gone := sel (listing (default ∅ m)) in
  does en clock oth q e k (stored zset_data d (without_members (map n_key gone) <$> m)) (eq (counted (length gone))).
Proof.
  intros Q B N Z. assert (OK : zset_ok m) by (destruct m; [by apply Z|done]). destruct Q; cbn zeta.
  - eapply (zset_does _ _ _ _ _ _ (ZRemRank a b)); [done..|]. cbn. eexists. split; [reflexivity|]. by rewrite len_counted.
  - eapply (zset_does _ _ _ _ _ _ (ZRemScore (lo, hi))); [|done..|].
    + cbn [plan_of]. by rewrite (two_read float_bound t u lo hi (score_read _ _ H) (score_read _ _ H0)).
    + cbn. eexists. split; [reflexivity|]. by rewrite len_counted.
Qed.
Print Assumptions C96_removals.
Example C96_removals_case : zremoval (QZremrangebyrank (bs "z") (-2) (-1)) (bs "z") (slice (-2) (-1)) /\
  ex_reply (QZremrangebyrank (bs "z") (-2) (-1)) = inl (FInteger 2).
Proof. split; [constructor|]. vm_compute. done. Qed.
Theorem C96_lex_removals en clock oth q e k sel m d : lremoval q k sel ->
  before clock oth e k = stored zset_data d m -> (m = None -> d = 0%N) ->
  (forall x, m = Some x -> no_nans x /\ equal_scores x) ->
  let gone := sel (listing (default ∅ m)) in
  does en clock oth q e k (stored zset_data d (without_members (map n_key gone) <$> m)) (eq (counted (length gone))).
Proof.
  intros Q B N Z. assert (OK : zset_ok m) by (destruct m; [by apply Z|done]).
  assert (ES : forall x, m = Some x -> equal_scores x) by (intros x X; by apply Z). destruct Q; cbn zeta.
  eapply (remlex_does _ _ _ _ _ _ (lo, hi)); [|done..|].
  - cbn [plan_of]. by rewrite (two_read lex_bound t u lo hi (lex_read _ _ _ H) (lex_read _ _ _ H0)).
  - cbn. eexists. split; [reflexivity|]. by rewrite len_counted.
Qed.
Print Assumptions C96_lex_removals.
Example C96_lex_removals_case : lremoval (QZremrangebylex (bs "y") (bs "[n") (bs "+")) (bs "y") (by_lex (Included (bs "n"), Unbounded)) /\
  ex_reply (QZremrangebylex (bs "y") (bs "[n") (bs "+")) = inl (FInteger 2).
Proof. split; [constructor; try done; by vm_compute|]. vm_compute. done. Qed.
Theorem C96_zrem en clock oth e k ms m d :
  before clock oth e k = stored zset_data d m -> (m = None -> d = 0%N) -> (forall x, m = Some x -> no_nans x) ->
  does en clock oth (QZrem k ms) e k (stored zset_data d (without_members ms <$> m))
    (eq (counted (size ((list_to_set ms : gset bytes) ∩ dom (default ∅ m))))).
Proof.
  intros B N Z. assert (OK : zset_ok m) by (destruct m; [by apply Z|done]).
  eapply (zset_does _ _ _ _ _ _ (ZRem ms)); [done..| |]; (destruct m as [x|]; cbn; [|try done]).
  - done.
  - eexists. split; [reflexivity|]. rewrite (zset_rest_size ms x) at 1. by rewrite diff_counted.
  - eexists. split; [reflexivity|]. rewrite dom_empty_L, intersection_empty_r_L, size_empty. by rewrite <- (diff_counted 0 0).
Qed.
Print Assumptions C96_zrem.
Example C96_zrem_case : ex_reply (QZrem (bs "z") [bs "p"; bs "no"; bs "p"; bs "q"]) = inl (FInteger 2).
Proof. vm_compute. done. Qed.
Theorem C96_zrank en clock oth e k mb m d :
  before clock oth e k = stored zset_data d m -> (m = None -> d = 0%N) -> (forall x, m = Some x -> no_nans x) ->
  does en clock oth (QZrank k mb) e k (stored zset_data d m) (eq (position_reply (index_of mb (listing (default ∅ m))))) /\
  does en clock oth (QZrevrank k mb) e k (stored zset_data d m) (eq (position_reply (index_of mb (rev (listing (default ∅ m)))))).
Proof.
  intros B N Z. assert (OK : zset_ok m) by (destruct m; [by apply Z|done]). split.
  - eapply (zset_does _ _ _ _ _ _ (ZRank mb false)); [done..|]. cbn. eexists. split; [reflexivity|]. destruct (index_of _ _); [|done]. cbn. by rewrite len_counted.
  - eapply (zset_does _ _ _ _ _ _ (ZRank mb true)); [done..|]. cbn. eexists. split; [reflexivity|]. destruct (index_of _ _); [|done]. cbn. by rewrite len_counted.
Qed.
Print Assumptions C96_zrank.
Example C96_zrank_case : ex_reply (QZrank (bs "z") (bs "p")) = inl (FInteger 2) /\ ex_reply (QZrevrank (bs "z") (bs "p")) = inl (FInteger 0).
Proof. split; vm_compute; done. Qed.
(** ZADD without INCR: every pair is written as the table of the code says (where it agrees with Redis: C32_table_differs);
    the reply is the number of new members, or with CH the number of members altogether. *)
Lemma zadd_grows nx gl ns p : size p.1 <= size (fold_left (code_zadd_one nx gl) ns p).1.
Proof.
  revert p; induction ns as [|n ns IH]; intros p; cbn [fold_left]; [done|]. etransitivity; [|apply IH].
  unfold code_zadd_one. destruct (code_zadd_table _ _ _ _); [|done]. cbn [fst]. destruct (p.1 !! n_key n) eqn:E.
  - rewrite map_size_insert, E. done.
  - rewrite map_size_insert, E. cbn. lia.
Qed.
Theorem C96_zadd en clock oth e k o ns m d : zo_incr o = false -> Forall (fun p => not_nan (fst p)) ns ->
  before clock oth e k = stored zset_data d m -> (m = None -> d = 0%N) -> (forall x, m = Some x -> no_nans x) ->
  let old := default ∅ m in
  let new := fst (fold_left (code_zadd_one (zo_nx o) (zo_gl o)) (map (fun p => Node (fst p) (snd p)) ns) (old, O)) in
  does en clock oth (QZadd k o ns) e k (Some (zset_data new, d)) (eq (counted (if zo_ch o then size new else size new - size old))).
Proof.
  intros I F B N Z old new.
  assert (F' : Forall (fun n => not_nan (n_score n)) (map (fun p : f64 * bytes => Node (fst p) (snd p)) ns)) by (by apply List.Forall_map).
  pose proof (zadd_grows (zo_nx o) (zo_gl o) (map (fun p => Node (fst p) (snd p)) ns) (old, O)) as G. fold new in G. cbn [fst] in G.
  change (Some (zset_data new, d)) with (stored zset_data d (Some new)).
  eapply (does_sim zset_data _ _ _ _ _ (CWrite (WZAdd k (map (fun p => Node (fst p) (snd p)) ns) (zo_nx o) (zo_gl o) false)) m (Some new) d
    (OOk (PZadd (ZaddResp (size old) (size new) (snd (fold_left (code_zadd_one (zo_nx o) (zo_gl o)) (map (fun p => Node (fst p) (snd p)) ns) (old, O))))))).
  - cbn [plan_of]. by rewrite I.
  - done.
  - exact B.
  - exact N.
  - cbn [ckey wkey flat_cmd]. intros dd L C.
    pose proof (C32_every_option (clock 1%nat) k (map (fun p => Node (fst p) (snd p)) ns) (zo_nx o) (zo_gl o) dd d m L N C Z F') as T.
    destruct (wapply _ _ dd) as [[d' r] u]. cbn [fst snd]. cbn zeta in T. fold old in T. unfold new.
    destruct (fold_left _ _ _) as [m' w]. cbn [fst snd]. destruct T as [T1 T2]. done.
  - cbn. eexists. split; [reflexivity|]. destruct (zo_ch o); [by rewrite len_counted|].
    rewrite <- (diff_counted (size old) (size new - size old)). f_equal. lia.
Qed.
Print Assumptions C96_zadd.
Example C96_zadd_case : Forall (fun p => not_nan (fst p)) [(f64_of_Z 9, bs "p"); (f64_of_Z 9, bs "new")] /\
  ex_reply (QZadd (bs "z") (ZaddOpts NxXx_None GtLt_None false false) [(f64_of_Z 9, bs "p"); (f64_of_Z 9, bs "new")]) = inl (FInteger 1).
Proof. split; [by repeat constructor|]. vm_compute. done. Qed.

(** ** C97: strings, counters, deadlines *)
Theorem C97_get en clock oth e k :
  does en clock oth (QGet k) e k (before clock oth e k)
    (eq (match before clock oth e k with Some (x, _) => got en x | None => FNull end)).
Proof.
  eapply (does_flat _ _ _ _ _ (CRead (RGet k)) (before clock oth e k)); [done|done| |].
  - intros d V. cbn [ckey rkey flat_cmd] in *. split.
    + rewrite <- V. apply view_same, rapply_same.
    + cbn [rapply snd]. pose proof (get_spec (clock 1%nat) k d) as G. destruct (get_apply _ _ _) as [d' x]. cbn [snd] in *. rewrite G, V. reflexivity.
  - cbn [answered answer]. destruct (before clock oth e k) as [[x dl]|]; cbn [seen_data]; [|done].
    by destruct x as [[]| | | |].
Qed.
Print Assumptions C97_get.
Example C97_get_case : ex_reply (QGet (bs "t")) = inl (FBulk (bs "-41z")) /\ ex_reply (QGet (bs "l")) = inl wrong_type /\ ex_reply (QGet (bs "no")) = inl FNull.
Proof. repeat split; vm_compute; done. Qed.
(** SETEX and PSETEX. *)
Theorem C97_setex en clock oth q e k x d : setex_asks (clock 0%nat) q = Some (k, x, d) ->
  does en clock oth q e k (while_alive (clock 1%nat) (DScalar x) d) (eq all_ok).
Proof.
  intros H. assert (P : plan_of (clock 0%nat) q = AOk (PCmds [CWrite (WSet k x (Specific d) NxXx_None)])).
  { destruct q; cbn [setex_asks] in H; try discriminate H; injection H as <- <- <-; cbn [plan_of]; by rewrite ?add_mul_mod, ?add_mod. }
  assert (Q : forall y, answer en (clock 2%nat) q [PData y] = AOk all_ok) by (by destruct q).
  pose (ans := OOk (PData DNull)).
  destruct (before clock oth e k) as [y|] eqn:B.
  all: destruct (db_set_spec (e_ho en) (clock 1%nat) k x (Specific d) NxXx_None (ef_db (oth 0%nat e))) as (rep & R & _ & C & _).
  all: destruct (serve_any en clock oth q e _ P) as [S1 S2]; rewrite R, Q in S2.
  all: unfold does; destruct (serve_request en clock oth q e) as [e' o]; cbn [fst snd] in S1, S2; subst o.
  all: exists e', all_ok; (split; [done|]); (split; [done|]); rewrite S1; (split; [|intros j J; by apply db_cmd_other]).
  all: unfold db_view, view; change (contents (fst (db_cmd (e_ho en) (clock 1%nat) (CWrite (WSet k x (Specific d) NxXx_None)) (ef_db (oth 0%nat e))) (get_slot k)) k)
    with (db_contents (fst (db_cmd (e_ho en) (clock 1%nat) (CWrite (WSet k x (Specific d) NxXx_None)) (ef_db (oth 0%nat e)))) k); rewrite C.
  all: cbn [set_stores set_deadline]; unfold while_alive; by destruct (decide _).
Qed.
Print Assumptions C97_setex.
Example C97_setex_case : setex_asks 5 (QSetex (bs "t") 2 (SBytes (bs "v"))) = Some (bs "t", SBytes (bs "v"), 2005%N) /\
  while_alive 5 (DScalar (SBytes (bs "v"))) 2005 = Some (DScalar (SBytes (bs "v")), 2005%N).
Proof. split; by vm_compute. Qed.
(** INCR, DECR, INCRBY, DECRBY: on a missing key, on a number, on a text that is no number. *)
Lemma counter_plan t q k n : counter_asks q = Some (k, n) -> plan_of t q = AOk (PCmds [CWrite (WIncr k n)]) /\
  forall en t z, answer en t q [PInt z] = AOk (FInteger z).
Proof. intros H. destruct q; cbn [counter_asks] in H; try discriminate H; injection H as <- <-; done. Qed.
Theorem C97_counter_new en clock oth q e k n : counter_asks q = Some (k, n) -> before clock oth e k = None ->
  does en clock oth q e k (Some (DScalar (SInteger n), 0%N)) (eq (FInteger n)).
Proof.
  intros H B. destruct (counter_plan (clock 0%nat) q k n H) as [P Q].
  eapply (does_flat _ _ _ _ _ (CWrite (WIncr k n)) None _ (OOk (PInt n))); [done|done| |].
  - intros d V. cbn [ckey wkey flat_cmd wapply] in *. unfold no_exp. destruct (incr_apply _ _ _ _) as [d1 r1] eqn:I. cbn [fst snd].
    destruct (incr_spec _ _ _ _ _ _ I) as (_ & H2). rewrite V in H2. destruct H2 as [-> C]. split; [|done].
    unfold view. rewrite C. rewrite decide_True; [done|by left].
  - cbn [answered]. by rewrite Q.
Qed.
Print Assumptions C97_counter_new.
Theorem C97_counter en clock oth q e k n x z d : counter_asks q = Some (k, n) -> before clock oth e k = Some (DScalar x, d) -> counts_as x z ->
  does en clock oth q e k (Some (DScalar (SInteger (as_i64 (z + n))), d)) (eq (number (z + n))).
Proof.
  intros H B A. destruct (counter_plan (clock 0%nat) q k n H) as [P Q].
  eapply (does_flat _ _ _ _ _ (CWrite (WIncr k n)) (Some (DScalar x, d)) _ (OOk (PInt (as_i64 (z + n))))); [done|done| |].
  - intros dd V. cbn [ckey wkey flat_cmd] in *. destruct (view_is _ _ _ _ V) as [_ L]. cbn [snd] in L.
    assert (T : let '(d', r, _) := wapply (clock 1%nat) (WIncr k n) dd in r = OOk (PInt (as_i64 (z + n))) /\ contents d' k = Some (DScalar (SInteger (as_i64 (z + n))), d)).
    { destruct x; cbn [counts_as] in A; try done.
      - pose proof (C19_every_text (clock 1%nat) k b n d dd (or_intror V)) as T. destruct (wapply _ _ _) as [[d' r] u]. apply (proj1 T z); apply A.
      - pose proof (C19_every_text (clock 1%nat) k b n d dd (or_introl V)) as T. destruct (wapply _ _ _) as [[d' r] u]. apply (proj1 T z); apply A.
      - subst z0. apply (C18_every_integer _ _ _ _ _ _ V). }
    destruct (wapply _ _ _) as [[d' r] u]. cbn [fst snd]. destruct T as [-> C]. split; [|done].
    unfold view. rewrite C. by rewrite decide_True.
  - cbn [answered]. by rewrite Q.
Qed.
Print Assumptions C97_counter.
Example C97_counter_case : ex_before (bs "t") = Some (DScalar (SBytes (bs "-41z")), 105000%N) /\ counts_as (SBytes (bs "-41z")) (-41) /\
  ex_reply (QIncr (bs "t")) = inl (FInteger (-40)).
Proof.
  split; [vm_compute; done|]. split; [|vm_compute; done]. split; [|lia].
  exists [x2d], (bs "41"), (bs "z"). split; [done|]. split; [repeat constructor; cbv; done|]. split; [intros [_ H]; by cbv in H|]. by do 2 right.
Qed.
Theorem C97_counter_text en clock oth q e k n x d : counter_asks q = Some (k, n) -> before clock oth e k = Some (DScalar x, d) ->
  is_text_value x -> (forall z, ~ counts_as x z) ->
  does en clock oth q e k (Some (DScalar x, d)) (eq not_integer).
Proof.
  intros H B X A. destruct (counter_plan (clock 0%nat) q k n H) as [P Q].
  eapply (does_flat _ _ _ _ _ (CWrite (WIncr k n)) (Some (DScalar x, d)) _ (OErr ENotInt)); [done|done| |].
  - intros dd V. cbn [ckey wkey flat_cmd] in *.
    assert (T : let '(d', r, _) := wapply (clock 1%nat) (WIncr k n) dd in r = OErr ENotInt /\ same_contents dd d').
    { destruct x; cbn [counts_as is_text_value] in A, X; try done.
      - pose proof (C19_every_text (clock 1%nat) k b n d dd (or_intror V)) as T. destruct (wapply _ _ _) as [[d' r] u]. apply (proj2 T).
        intros z R F. apply (A z). done.
      - pose proof (C19_every_text (clock 1%nat) k b n d dd (or_introl V)) as T. destruct (wapply _ _ _) as [[d' r] u]. apply (proj2 T).
        intros z R F. apply (A z). done. }
    destruct (wapply _ _ _) as [[d' r] u]. cbn [fst snd]. destruct T as [-> C]. split; [|done]. rewrite <- V. by apply view_same.
  - done.
Qed.
Print Assumptions C97_counter_text.
Example C97_counter_text_case : ex_reply (QIncr (bs "w")) = inl not_integer.
Proof. vm_compute. done. Qed.
(** EXPIRE, PEXPIRE, EXPIREAT, PEXPIREAT with any options. *)
Theorem C97_expire en clock oth q e k new o : expire_wants (clock 0%nat) q = Some (k, new, o) ->
  let acts := match before clock oth e k with
    | Some (_, d) => code_expire_table (eo_nx o) (eo_gl o) (forever_or d) new
    | None => false
    end in
  does en clock oth q e k
    (match before clock oth e k with Some (x, d) => if acts then while_alive (clock 1%nat) x new else Some (x, d) | None => None end)
    (eq (yes_no acts)).
Proof.
  intros H acts. assert (P : plan_of (clock 0%nat) q = AOk (PCmds [CWrite (WExpire k new (eo_nx o) (eo_gl o))])).
  { destruct q; cbn [expire_wants] in H; try discriminate H; injection H as <- <- <-; cbn [plan_of].
    - rewrite N.add_comm. unfold add_u64, mul_u64, wrap_u64. change two64 with (2 ^ 64)%N. by rewrite N.add_mod_idemp_l by done.
    - done.
    - unfold add_u64, wrap_u64. by rewrite N.add_comm.
    - done. }
  assert (Q : forall b, answer en (clock 2%nat) q [PBool b] = AOk (yes_no b)) by (by destruct q).
  eapply (does_flat _ _ _ _ _ (CWrite (WExpire k new (eo_nx o) (eo_gl o))) (before clock oth e k) _ (OOk (PBool acts))); [done|done| |].
  - intros d V. cbn [ckey wkey flat_cmd] in *. pose proof (C15_every_option (clock 1%nat) k new (eo_nx o) (eo_gl o) d) as T.
    destruct (wapply _ _ _) as [[d' r] u]. cbn [fst snd]. destruct T as [_ T]. rewrite V in T. unfold acts.
    destruct (before clock oth e k) as [[x dl]|].
    + destruct T as [-> C]. split; [|done]. unfold view. rewrite C.
      destruct (code_expire_table _ _ _ _); [done|]. exact V.
    + destruct T as [-> C]. split; [|done]. unfold view. rewrite C. exact V.
  - cbn [answered]. by rewrite Q.
Qed.
Print Assumptions C97_expire.
Example C97_expire_case : expire_wants 5 (QExpire (bs "t") 3 (ExOpts NxXx_None GtLt_Lt)) = Some (bs "t", 3005%N, ExOpts NxXx_None GtLt_Lt) /\
  ex_reply (QExpire (bs "t") 3 (ExOpts NxXx_None GtLt_Lt)) = inl (FInteger 1) /\ ex_reply (QExpire (bs "t") 3000 (ExOpts NxXx_None GtLt_Lt)) = inl (FInteger 0).
Proof. repeat split; vm_compute; done. Qed.

(** ** C98: a request for another kind of value is refused *)
Theorem C98_wrong_type en clock oth q e k kd x d : works_on q = Some (k, kd) -> bounds_read q ->
  before clock oth e k = Some (x, d) -> kind_of x <> kd ->
  does en clock oth q e k (Some (x, d)) (eq wrong_type).
Proof.
  intros W BR B N.
  assert (A : (exists k0, q = QGet k0) \/ exists c, plan_of (clock 0%nat) q = AOk (PCmds [c]) /\ ckey c = k /\
    match c with CWrite w => wkind w | CRead r => rkind r end = Some kd).
  { destruct q; cbn [works_on] in W; try discriminate W; injection W as <- <-; cbn [plan_of bounds_read] in *; try (by left; eexists); right.
    all: try (eexists; split; [reflexivity|done]).
    - destruct (ro_order o) eqn:RO; [destruct BR as (a & b & H1 & H2)|destruct BR as (a & b & H1 & H2)|destruct BR as (p1 & p2 & a & b & H1 & H2)].
      + rewrite (two_read int_of _ _ _ _ (int_read _ _ H1) (int_read _ _ H2)). eexists; split; [reflexivity|done].
      + rewrite (two_read float_bound _ _ _ _ (score_read _ _ H1) (score_read _ _ H2)). eexists; split; [reflexivity|done].
      + rewrite (two_read lex_bound _ _ _ _ (lex_read _ _ _ H1) (lex_read _ _ _ H2)). eexists; split; [reflexivity|done].
    - destruct BR as (p1 & p2 & a & b & H1 & H2). rewrite (two_read lex_bound _ _ _ _ (lex_read _ _ _ H1) (lex_read _ _ _ H2)). eexists; split; [reflexivity|done].
    - destruct BR as (a & b & H1 & H2). rewrite (two_read float_bound _ _ _ _ (score_read _ _ H1) (score_read _ _ H2)). eexists; split; [reflexivity|done].
    - destruct BR as (p1 & p2 & a & b & H1 & H2). rewrite (two_read lex_bound _ _ _ _ (lex_read _ _ _ H1) (lex_read _ _ _ H2)). eexists; split; [reflexivity|done].
    - destruct BR as (a & b & H1 & H2). rewrite (two_read float_bound _ _ _ _ (score_read _ _ H1) (score_read _ _ H2)). eexists; split; [reflexivity|done].
    - destruct BR as (a & b & H1 & H2). rewrite (two_read int_of _ _ _ _ (int_read _ _ H1) (int_read _ _ H2)). eexists; split; [reflexivity|done].
    - destruct BR as (p1 & p2 & a & b & H1 & H2). rewrite (two_read lex_bound _ _ _ _ (lex_read _ _ _ H1) (lex_read _ _ _ H2)). eexists; split; [reflexivity|done].
    - destruct BR as (a & b & H1 & H2). rewrite (two_read float_bound _ _ _ _ (score_read _ _ H1) (score_read _ _ H2)). eexists; split; [reflexivity|done]. }
  destruct A as [(k0 & ->)|(c & P & <- & K)].
  - cbn [works_on] in W. injection W as <- <-. pose proof (C97_get en clock oth e k0) as G. rewrite B in G.
    replace wrong_type with (got en x); [done|]. destruct x; done.
  - eapply (does_flat _ _ _ _ _ c (Some (x, d)) _ (OErr EWrongType)); [done|done| |done].
    intros dd V. destruct c as [w|r]; cbn [ckey flat_cmd] in *.
    + destruct (wapply_wrong_type _ _ _ _ _ _ V K N) as (d' & -> & S). cbn [fst snd]. split; [|done]. rewrite <- V. by apply view_same.
    + split; [|by apply (rapply_wrong_type _ _ _ _ x d kd)]. rewrite <- V. apply view_same, rapply_same.
Qed.
Print Assumptions C98_wrong_type.
Example C98_case : works_on (QZrevrange (bs "l") (bs "0") (bs "-1") true) = Some (bs "l", KZset) /\ bounds_read (QZrevrange (bs "l") (bs "0") (bs "-1") true) /\
  ex_reply (QZrevrange (bs "l") (bs "0") (bs "-1") true) = inl wrong_type.
Proof.
  split; [done|]. split; [|vm_compute; done]. exists 0%Z, (-1)%Z. split; apply parse_i64_iff; by vm_compute.
Qed.

(** ** C99: the remaining requests *)
(** Texts with ", " between them. *)
Definition commas (ts : list bytes) : bytes :=
  match ts with [] => [] | t :: ts' => t ++ concat (map (fun x => bs ", " ++ x) ts') end.
(** How an argument is printed: texts as they are, other bytes as a list of numbers, an array without its first
    element and without commas. *)
Fixpoint printed (f : frame) : bytes :=
  let text b := if utf8_valid b then b else bs "[" ++ commas (map (fun c => show_Z (Z.of_N (Byte.to_N c))) b) ++ bs "]" in
  match f with
  | FBulk b => text b
  | FSimple b => text b
  | FError b => text b
  | FInteger z => show_Z z
  | FNull => bs "(nil)"
  | FArray [] => []
  | FArray (_ :: l) => concat (map (fun x => bs " " ++ printed x) l)
  | FPing => bs "PING"
  | FPong => bs "PONG"
  | FNoRes => bs "NoRes"
  end.
Definition no_database (en : env) (q : request) : option frame :=
  match q with
  | QPing => Some FPong
  | QInfo => Some (FBulk ([LF] ++ bs "        # Fake data in `info` command" ++ CRLF ++ [LF] ++ bs "        # Server" ++ CRLF ++ [LF] ++
      bs "        redis_version:0.0.0" ++ CRLF ++ [LF] ++ bs "        redis_git_sha1:00000000" ++ CRLF ++ [LF] ++ bs "        "))
  | QConfig _ _ => Some all_ok
  | QUnknown n ps => Some (FError (bs "ERR unknown command '" ++ n ++ bs "', params: [" ++ commas (map printed ps) ++ bs "]"))
  | _ => None
  end.
Lemma join_commas (ts : list bytes) : Server.join (bs ", ") ts = commas ts.
Proof.
  destruct ts as [|t ts]; [done|]. revert t. induction ts as [|u ts IH]; intros t; cbn [Server.join commas map concat].
  - by rewrite app_nil_r.
  - f_equal. rewrite <- app_assoc. f_equal. apply IH.
Qed.
Lemma printed_debug : forall f, debug_frame f = printed f.
Proof.
  assert (B : forall b, debug_bytes b = bs "[" ++ commas (map (fun c => show_Z (Z.of_N (Byte.to_N c))) b) ++ bs "]").
  { intros b. unfold debug_bytes. rewrite join_commas. do 3 f_equal. apply map_ext. intros c. unfold show_Z.
    rewrite (proj2 (Z.ltb_ge _ _)) by apply N2Z.is_nonneg. by rewrite N2Z.id. }
  fix IH 1. intros f. destruct f as [| | | | |l| | |]; cbn [debug_frame printed]; try (by rewrite ?B).
  destruct l as [|x l]; [done|]. clear x. f_equal. induction l as [|y l IL]; [done|]. cbn [map]. f_equal; [|exact IL]. f_equal. apply IH.
Qed.
Theorem C99_no_database en clock oth q e f : no_database en q = Some f -> serve_request en clock oth q e = (e, inl f).
Proof.
  intros H. destruct q; cbn [no_database] in H; try discriminate H; injection H as <-; try reflexivity.
  change (serve_request en clock oth (QUnknown name params) e) with (e, @inl frame hend (FError (unknown_text name params))).
  unfold unknown_text. rewrite join_commas, (map_ext _ _ printed_debug). done.
Qed.
Print Assumptions C99_no_database.
Example C99_no_database_case :
  no_database ex_env (QUnknown (bs "foo") [FBulk (bs "a"); FInteger (-3); FArray [FNull; FNull]; FBulk [xff; x00]]) =
    Some (FError (bs "ERR unknown command 'foo', params: [a, -3,  (nil), [255, 0]]")) /\
  no_database ex_env QInfo = Some (FBulk ([LF] ++ bs "        # Fake data in `info` command" ++ CRLF ++ [LF] ++ bs "        # Server" ++ CRLF ++ [LF] ++
    bs "        redis_version:0.0.0" ++ CRLF ++ [LF] ++ bs "        redis_git_sha1:00000000" ++ CRLF ++ [LF] ++ bs "        ")).
Proof. vm_compute. done. Qed.
(** EXISTS and DEL of one key (of several: C69).  DEL also counts a key whose deadline has passed. *)
Theorem C99_exists en clock oth e k :
  does en clock oth (QExists [k]) e k (before clock oth e k) (eq (yes_no (bool_decide (is_Some (before clock oth e k))))).
Proof.
  eapply (does_flat _ _ _ _ _ (CRead (RExists k)) (before clock oth e k) _ (OOk (PBool (bool_decide (is_Some (before clock oth e k)))))); [done|done| |].
  - intros d V. cbn [ckey rkey flat_cmd] in *. split; [rewrite <- V; apply view_same, rapply_same|].
    cbn [rapply snd]. cmd_unfold. destruct (dict_get_case (clock 1%nat) k d) as [v E A V'|V']; rewrite V' in V; rewrite <- V; reflexivity.
  - cbn [answered answer count_hits fold_left]. by destruct (before clock oth e k).
Qed.
Print Assumptions C99_exists.
Theorem C99_del en clock oth e k : exists e',
  serve_request en clock oth (QDel [k]) e = (e', inl (yes_no (bool_decide (is_Some (db_raw (ef_db (oth 0%nat e)) k))))) /\
  db_raw (ef_db e') k = None /\ forall j, j <> k -> db_raw (ef_db e') j = db_raw (ef_db (oth 0%nat e)) j.
Proof.
  destruct (serve_any en clock oth (QDel [k]) e (CWrite (WDel k)) eq_refl) as [S1 S2].
  destruct (db_cmd_refines_slot (e_ho en) (clock 1%nat) (CWrite (WDel k)) (ef_db (oth 0%nat e))) as [C R].
  cbn [ckey wkey flat_cmd] in C, R. set (d := snd (next_id _)) in *.
  assert (D : db_raw (ef_db (oth 0%nat e)) k = inner d !! k) by done.
  destruct (serve_request en clock oth (QDel [k]) e) as [e' o]. cbn [fst snd] in S1, S2. exists e'. subst o. rewrite S1.
  split; [|split; [|intros j J; by apply db_cmd_other]].
  - rewrite R, D. cbn [wapply]. cmd_unfold. unfold dict_remove. destruct (inner d !! k); reflexivity.
  - assert (X : db_contents (fst (db_cmd (e_ho en) (clock 1%nat) (CWrite (WDel k)) (ef_db (oth 0%nat e)))) k = None).
    { rewrite C. cbn [wapply]. cmd_unfold. unfold dict_remove, contents. destruct (inner d !! k) eqn:E; cbn; by rewrite ?lookup_delete, ?E. }
    rewrite db_raw_contents in X. by apply fmap_None in X.
Qed.
Print Assumptions C99_del.
Theorem C99_debug en clock oth e sub ps :
  (sub <> bs "object" -> serve_request en clock oth (QDebug sub ps) e = (e, inl all_ok)) /\
  forall k, does en clock oth (QDebug (bs "object") (k :: ps)) e k (before clock oth e k)
    (eq (match before clock oth e k with Some _ => all_ok | None => no_such_key end)).
Proof.
  split.
  - intros N. unfold serve_request. cbn [plan_of]. by rewrite bool_decide_eq_false_2.
  - intros k. eapply (does_flat _ _ _ _ _ (CRead (RExists k)) (before clock oth e k) _ (OOk (PBool (bool_decide (is_Some (before clock oth e k)))))); [done|done| |].
    + intros d V. cbn [ckey rkey flat_cmd] in *. split; [rewrite <- V; apply view_same, rapply_same|].
      cbn [rapply snd]. cmd_unfold. destruct (dict_get_case (clock 1%nat) k d) as [v E A V'|V']; rewrite V' in V; rewrite <- V; reflexivity.
    + cbn [answered answer]. by destruct (before clock oth e k).
Qed.
Print Assumptions C99_debug.
Theorem C99_flushall en clock oth e sync : exists e', serve_request en clock oth (QFlushall sync) e = (e', inl all_ok) /\
  (forall k, db_raw (ef_db e') k = None) /\ ef_exp e' = ef_exp e /\ ef_fwd e' = ef_fwd e.
Proof. eexists. split; [reflexivity|]. split; [intros k; apply flushall_empty|done]. Qed.
Print Assumptions C99_flushall.
(** DUMP, and RESTORE of whatever can be read as a value. *)
Theorem C99_dump en clock oth e k : horder_ok (e_ho en) ->
  (forall x d, before clock oth e k = Some (x, d) -> data_fits x) ->
  does en clock oth (QDump k) e k (before clock oth e k)
    (fun f => match before clock oth e k with
              | Some (x, _) => exists p, f = FBulk p /\ deserialize get_data p = OOk x
              | None => f = FNull
              end).
Proof.
  intros H F. destruct (serve_any en clock oth (QDump k) e (CRead (RDump k)) eq_refl) as [S1 S2].
  destruct (db_cmd_refines_slot (e_ho en) (clock 1%nat) (CRead (RDump k)) (ef_db (oth 0%nat e))) as [C R].
  unfold does. destruct (serve_request en clock oth (QDump k) e) as [e' o]. cbn [fst snd] in S1, S2. subst o.
  assert (V : db_view (clock 1%nat) (ef_db e') k = before clock oth e k).
  { rewrite S1. unfold before, db_view, view. unfold db_contents in C. cbn [ckey rkey] in C. rewrite C.
    cbn [flat_cmd]. destruct (rapply_same (e_ho en) (clock 1%nat) (RDump k) (ef_db (oth 0%nat e) (get_slot k))) as [_ K]. by rewrite K. }
  assert (O : forall j, j <> k -> db_raw (ef_db e') j = db_raw (ef_db (oth 0%nat e)) j) by (intros j J; rewrite S1; by apply db_cmd_other).
  destruct (before clock oth e k) as [[x d]|] eqn:B.
  - pose proof (F x d eq_refl) as FX. unfold before in B. apply view_raw in B as (v & RV & AL & <- & _).
    pose proof (dump_reply (e_ho en) (clock 1%nat) k _ v RV AL) as D. cbn [db_cmd]. rewrite D.
    eexists e', _. split; [reflexivity|]. split; [|done]. eexists. split; [reflexivity|]. by apply (payload_data (e_ho en) (touch (clock 1%nat) v)).
  - unfold before in B. pose proof (dump_absent (e_ho en) (clock 1%nat) k _ B) as D. cbn [db_cmd]. rewrite D.
    eexists e', _. split; [reflexivity|]. split; [reflexivity|]. split; [exact V|exact O].
Qed.
Print Assumptions C99_dump.
Theorem C99_restore en clock oth e k ttl v o x : deserialize get_data v = OOk x ->
  re_replace o = true \/ before clock oth e k = None ->
  does en clock oth (QRestore k ttl v o) e k (while_alive (clock 1%nat) x (restore_deadline (clock 0%nat) ttl o)) (eq all_ok).
Proof.
  intros D F. set (r := restore_request (clock 0%nat) k ttl v o).
  eapply (does_flat _ _ _ _ _ (CWrite (WRestore r)) (before clock oth e k) _ (OOk PUnit)); [done|done| |done].
  intros d V. cbn [ckey wkey flat_cmd] in *.
  assert (H : r_replace r = true \/ view (clock 1%nat) d (r_key r) = None) by (destruct F as [F|F]; [by left|right; rewrite <- F; exact V]).
  destruct (restore_view (clock 1%nat) r d H x D) as [R C]. cbn [wapply].
  destruct (restore_apply (clock 1%nat) r d) as [[d' q] u]. cbn [fst snd] in *. subst q. split; [|done].
  unfold view. rewrite C. unfold while_alive.
  replace (r_exp r) with (restore_deadline (clock 0%nat) ttl o); [by destruct (decide _)|].
  unfold r, restore_request, restore_deadline. cbn [r_exp]. destruct (re_absttl o); [done|].
  destruct (N.eqb_spec ttl 0) as [->|N]; [done|]. by replace (0 <? ttl)%N with true by lia.
Qed.
Print Assumptions C99_restore.
Theorem C99_restore_busy en clock oth e k ttl v o x d : re_replace o = false -> before clock oth e k = Some (x, d) ->
  does en clock oth (QRestore k ttl v o) e k (Some (x, d)) (eq busy_key).
Proof.
  intros F B. set (r := restore_request (clock 0%nat) k ttl v o).
  eapply (does_flat _ _ _ _ _ (CWrite (WRestore r)) (Some (x, d)) _ (OErr EBusyKey)); [done|exact B| |done].
  intros dd V. cbn [ckey wkey flat_cmd wapply] in *. rewrite (restore_busy (clock 1%nat) r dd x d V F). cbn [fst snd]. split; [|done].
  rewrite <- V. apply view_same, dict_get_same.
Qed.
Print Assumptions C99_restore_busy.
Theorem C99_restore_malformed en clock oth e k ttl v o x : deserialize get_data v = OErr x ->
  re_replace o = true \/ before clock oth e k = None ->
  does en clock oth (QRestore k ttl v o) e k (before clock oth e k) (eq (FError (err_text en v (SDict x)))).
Proof.
  intros D F. set (r := restore_request (clock 0%nat) k ttl v o).
  eapply (does_flat _ _ _ _ _ (CWrite (WRestore r)) (before clock oth e k) _ (OErr x)); [done|done| |done].
  intros d V. cbn [ckey wkey flat_cmd wapply] in *.
  assert (H : r_replace r = true \/ view (clock 1%nat) d (r_key r) = None) by (destruct F as [F|F]; [by left|right; rewrite <- F; exact V]).
  destruct (restore_malformed (clock 1%nat) r d) as (_ & C & _); [intros y; change (r_value r) with v; by rewrite D|].
  split.
  - rewrite <- V. apply view_same. by destruct (restore_apply (clock 1%nat) r d) as [[d' q] u].
  - unfold restore_apply. change (r_value r) with v. rewrite D. destruct (dict_get_case (clock 1%nat) (r_key r) d) as [y E A V'|V'];
      [rewrite V' in H; destruct H as [->|H]; done|by destruct (r_replace r)].
Qed.
Print Assumptions C99_restore_malformed.
Example C99_restore_case :
  exists p, ex_reply (QDump (bs "z")) = inl (FBulk p) /\ is_Some (match deserialize get_data p with OOk x => Some x | _ => None end) /\
  ex_reply (QRestore (bs "copy") 0 p (RestoreOpts false false None None)) = inl all_ok /\
  ex_reply (QRestore (bs "t") 0 p (RestoreOpts false false None None)) = inl busy_key /\
  ex_reply (QRestore (bs "copy") 0 [x09] (RestoreOpts false false None None)) = inl (FError (bs "bad payload")) /\
  ex_reply (QExists [bs "t"]) = inl (FInteger 1) /\ ex_reply (QDel [bs "no"]) = inl (FInteger 0) /\
  ex_reply (QDebug (bs "object") [bs "no"]) = inl no_such_key /\ ex_reply (QFlushall true) = inl all_ok.
Proof.
  eexists. split; [vm_compute; reflexivity|]. split; [vm_compute; eexists; reflexivity|]. repeat split; vm_compute; done.
Qed.
