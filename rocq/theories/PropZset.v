(** C31-C38: sorted sets. *)
From Verif Require Import ZsetInv.

(** Check the conditions on a concrete history. *)
Ltac each_ok :=
  repeat match goal with
  | |- Forall _ [] => apply List.Forall_nil
  | |- Forall _ (_ :: _) => apply List.Forall_cons
  | |- _ /\ _ => split
  end; cbn; try exact Logic.I; try reflexivity;
  lazymatch goal with |- Forall _ _ => each_ok | |- _ /\ _ => each_ok | |- _ => idtac end.

(** ** C31: after any history without ZADD INCR, NaN scores and RESTORE, the two indexes of every sorted set
    agree: the tree lists the nodes of the hash, each member once, in order. *)
Theorem C31_indexes_agree (ho : horder) (hist : list (N * cmd)) (k : bytes) (h : gmap bytes node) (l : list node) (e : N) :
  Forall (fun p => match snd p with CWrite w => gentle w | CRead _ => True end) hist ->
  db_contents (fst (db_run ho hist db_empty)) k = Some (DZSet h l, e) ->
  indexes_agree h l.
Proof.
  intros H C. apply zgood_agree. eapply (db_run_good ho hist db_empty H); [|exact C].
  intros k' x e' D. done.
Qed.
Print Assumptions C31_indexes_agree.
Definition ex_z : list (N * cmd) :=
  [(1%N, CWrite (WZAdd (bs "z") [Node (f64_of_Z 3) (bs "a"); Node (f64_of_Z (-1)) (bs "b"); Node (f64_of_Z 3) (bs "Z")] NxXx_None GtLt_None false));
   (2%N, CWrite (WZAdd (bs "z") [Node (f64_of_Z 5) (bs "b"); Node (f64_of_Z 4) (bs "c")] NxXx_Xx GtLt_Gt false));
   (3%N, CWrite (WZRemScore (bs "z") (Included (f64_of_Z 4), Unbounded) false));
   (4%N, CWrite (WZAdd (bs "z") [Node (f64_of_Z 0) (bs "d"); Node f64_inf (bs "")] NxXx_None GtLt_None false))].
Example C31_case :
  Forall (fun p => match snd p with CWrite w => gentle w | CRead _ => True end) ex_z /\
  exists h e, db_contents (fst (db_run horder_default ex_z db_empty)) (bs "z") =
    Some (DZSet h [Node (f64_of_Z 0) (bs "d"); Node (f64_of_Z 3) (bs "Z"); Node (f64_of_Z 3) (bs "a"); Node f64_inf (bs "")], e).
Proof.
  split; [unfold ex_z; each_ok|].
  match goal with |- exists _ _, ?w = Some (DZSet _ ?l, _) =>
    assert (A : option_map (fun p => match fst p with DZSet _ x => Some x | _ => None end) w = Some (Some l)) by (by vm_compute);
    revert A; generalize w; generalize l
  end.
  intros l [[[] e]|]; cbn; intros A; try done. injection A as ->. by do 2 eexists.
Qed.
(** With ZADD INCR they do not: the hash keeps the increment, the tree the sum, and removing the member leaves
    a ghost behind in the tree. *)
Theorem C31_zadd_incr_ghost_refuted :
  exists hist, Forall (fun p => match snd p with CWrite (WZAdd _ ns _ _ _) => Forall (fun n => not_nan (n_score n)) ns
                                | CWrite (WRestore _) => False | _ => True end) hist /\
  (exists h l e, db_contents (fst (db_run horder_default hist db_empty)) (bs "z") = Some (DZSet h l, e) /\ ~ indexes_agree h l) /\
  snd (db_run horder_default (hist ++ [(4%N, CRead (RZRank (bs "z") (bs "a") false)); (4%N, CRead (RZRangeRank (bs "z") 0 (-1) None false))]) db_empty)
    = [OOk (PZadd (ZaddResp 0 1 1)); OOk (PZadd (ZaddResp 1 1 1)); OOk (PLens (Lens 1 0));
       OOk (POptNat None); OOk (PNodes [Node (f64_of_Z 3) (bs "a")])].
Proof.
  exists [(1%N, CWrite (WZAdd (bs "z") [Node (f64_of_Z 1) (bs "a")] NxXx_None GtLt_None false));
     (2%N, CWrite (WZAdd (bs "z") [Node (f64_of_Z 2) (bs "a")] NxXx_None GtLt_None true));
     (3%N, CWrite (WZRemove (bs "z") [bs "a"]))].
  split; [each_ok|]. split.
  - exists ∅, [Node (f64_of_Z 3) (bs "a")], 0%N. split; [apply (bool_decide_eq_true_1 _); vm_compute; reflexivity|].
    intros (_ & _ & H & _). specialize (H (Node (f64_of_Z 3) (bs "a"))).
    rewrite lookup_empty in H. discriminate (proj1 H (elem_of_list_here _ _)).
  - vm_compute. reflexivity.
Qed.
Print Assumptions C31_zadd_incr_ghost_refuted.

(** ** C32: ZADD with options.  Missing: GT and LT without XX (the code then never adds a member, below). *)
Theorem C32_zadd_partial (now : N) (k : bytes) (ns : list node) (nx : nx_xx) (gl : gt_lt) (d : dict) (e : N)
    (s : option (gmap bytes f64)) :
  lives now e -> (s = None -> e = 0%N) -> contents d k = stored zset_data e s ->
  (forall m, s = Some m -> no_nans m) -> Forall (fun n => not_nan (n_score n)) ns ->
  zadd_regular nx gl ->
  let '(d', r, _) := wapply now (WZAdd k ns nx gl false) d in
  let m := default ∅ s in
  let '(m', written) := fold_left (zadd_one nx gl) ns (m, O) in
  contents d' k = Some (zset_data m', e) /\
  r = OOk (PZadd (ZaddResp (size m) (size m') written)).
Proof.
  intros L N C Hm Hns R. assert (I : zset_ok s) by (destruct s; [by apply Hm|done]).
  destruct (zset_sim k horder_default now (ZAdd ns nx gl) d e s (conj Hns R) I L N C) as (S1 & S2 & _).
  cbn [zset_cmd flat_cmd zset_step] in S1, S2.
  destruct (wapply now (WZAdd k ns nx gl false) d) as [[d' r] u]. cbn [fst snd] in *.
  destruct (fold_left _ _ _) as [m' w]. done.
Qed.
Print Assumptions C32_zadd_partial.
(** One member: what ZADD does to it. *)
Theorem C32_zadd_member (nx : nx_xx) (gl : gt_lt) (m : gmap bytes f64) (w : nat) (n : node) (k : bytes) :
  fst (zadd_one nx gl (m, w) n) !! k =
  if decide (k = n_key n) then
    match m !! k with
    | None => match nx with NxXx_Xx => None | _ => Some (n_score n) end
    | Some s =>
        match nx, gl with
        | NxXx_Nx, _ => Some s
        | _, GtLt_Gt => if f64_lt s (n_score n) then Some (n_score n) else Some s
        | _, GtLt_Lt => if f64_lt (n_score n) s then Some (n_score n) else Some s
        | _, GtLt_None => Some (n_score n)
        end
    end
  else m !! k.
Proof.
  unfold zadd_one, zadd_allowed. cbn [fst snd]. destruct (decide (k = n_key n)) as [->|H].
  - destruct (m !! n_key n) as [s|] eqn:E, nx, gl; cbn; repeat case_match; cbn; rewrite ?lookup_insert, ?E; try done.
  - repeat case_match; cbn; rewrite ?lookup_insert_ne by done; done.
Qed.
Print Assumptions C32_zadd_member.
Example C32_case : zadd_regular NxXx_Nx GtLt_None /\ zadd_regular NxXx_Xx GtLt_Lt /\
  fold_left (zadd_one NxXx_Xx GtLt_Lt) [Node (f64_of_Z 2) (bs "a"); Node (f64_of_Z 4) (bs "b"); Node (f64_of_Z 1) (bs "c")]
    ({[bs "a" := f64_of_Z 3; bs "b" := f64_of_Z 3]}, O) = ({[bs "a" := f64_of_Z 2; bs "b" := f64_of_Z 3]}, 1%nat).
Proof.
  split; [by left|]. split; [by right|]. apply (bool_decide_eq_true_1 _). vm_compute. reflexivity.
Qed.
(** GT does prevent adding, although Redis documents that it does not; and XX creates an (empty) key. *)
Theorem C32_gt_prevents_adding_refuted :
  exists d, contents d (bs "z") = Some (zset_data {[bs "a" := f64_of_Z 1]}, 0%N) /\
    zadd_allowed NxXx_None GtLt_Gt None (f64_of_Z 9) = true /\
    contents (fst (fst (wapply 0 (WZAdd (bs "z") [Node (f64_of_Z 9) (bs "b")] NxXx_None GtLt_Gt false) d))) (bs "z") =
      Some (zset_data {[bs "a" := f64_of_Z 1]}, 0%N).
Proof.
  exists (Dict 0 {[bs "z" := Value (zset_data {[bs "a" := f64_of_Z 1]}) 0 0]}).
  split; [|split]; apply (bool_decide_eq_true_1 _); vm_compute; reflexivity.
Qed.
Print Assumptions C32_gt_prevents_adding_refuted.
Theorem C32_xx_creates_key_refuted :
  let b := fst (db_write 0 (WZAdd (bs "z") [Node (f64_of_Z 9) (bs "b")] NxXx_Xx GtLt_None false) db_empty) in
  db_contents b (bs "z") = Some (DZSet ∅ [], 0%N) /\
  snd (db_read horder_default 0 (RExists (bs "z")) b) = OOk (PBool true).
Proof. split; apply (bool_decide_eq_true_1 _); vm_compute; reflexivity. Qed.
Print Assumptions C32_xx_creates_key_refuted.

(** ** C33: a sorted set is a map from members to scores, listed by (score, member).  The listing used by the
    machine [zset_step] is the sorted one, and there is only one. *)
Theorem C33_listing (m : gmap bytes f64) : no_nans m ->
  sorted_listing m (listing m) /\ NoDup (map n_key (listing m)) /\ length (listing m) = size m /\
  forall l, sorted_listing m l -> l = listing m.
Proof.
  intros H. split; [by apply listing_sorted|]. split; [by apply listing_keys|]. split; [by apply listing_length|].
  intros l. by apply sorted_listing_unique.
Qed.
Print Assumptions C33_listing.
(** Every history on a key made of ZADD, ZREM, ZREMRANGEBYRANK, ZREMRANGEBYSCORE, ZRANK, ZRANGE and
    ZRANGEBYSCORE (with the options on which the code follows Redis) is a run of that machine. *)
Theorem C33_sorted_sets_are_score_maps (ho : horder) (k : bytes) (h : list (N * cmd)) (ops : list zset_op) (b : db)
    (e : N) (s : option (gmap bytes f64)) :
  Forall zset_regular ops ->
  (forall m, s = Some m -> no_nans m) ->
  map snd (on_key k h) = map (zset_cmd k) ops ->
  Forall (fun p => lives (fst p) e) (on_key k h) ->
  (s = None -> e = 0%N) ->
  db_contents b k = stored zset_data e s ->
  db_contents (fst (db_run ho h b)) k = stored zset_data e (fst (run_ops zset_step ops s)) /\
  replies_on k h (snd (db_run ho h b)) = snd (run_ops zset_step ops s) /\
  (forall m, fst (run_ops zset_step ops s) = Some m -> no_nans m).
Proof.
  intros P Hm O L N C. assert (I : zset_ok s) by (destruct s; [by apply Hm|done]).
  destruct (object_run_inv _ _ _ _ k _ ho zset_ok zset_regular (zset_sim k ho) h ops b e s P I O L N C) as (A & B & D).
  split; [done|]. split; [done|]. intros m E. by rewrite E in D.
Qed.
Print Assumptions C33_sorted_sets_are_score_maps.
(** The replies to the rank queries, spelled out on the sorted listing. *)
Theorem C33_zrange (ho : horder) (now : N) (k : bytes) (a b : Z) (rv : bool) (d : dict) (m : gmap bytes f64) (l : list node) (e : N) :
  contents d k = Some (zset_data m, e) -> lives now e -> no_nans m -> sorted_listing m l ->
  snd (rapply ho now (RZRangeRank k a b None rv) d) = OOk (PNodes (slice a b (if rv then rev l else l))).
Proof.
  intros C L Hm S. rewrite (sorted_listing_unique m l Hm S).
  exact (proj1 (proj2 (zset_sim k ho now (ZRange a b None rv) d e (Some m) Logic.I Hm L (fun H => ltac:(discriminate H)) C))).
Qed.
Print Assumptions C33_zrange.
Theorem C33_zrank (ho : horder) (now : N) (k mb : bytes) (rv : bool) (d : dict) (m : gmap bytes f64) (l : list node) (e : N) :
  contents d k = Some (zset_data m, e) -> lives now e -> no_nans m -> sorted_listing m l ->
  exists r, snd (rapply ho now (RZRank k mb rv) d) = OOk (POptNat r) /\
    match r with
    | Some i => exists s, m !! mb = Some s /\ (if rv then rev l else l) !! i = Some (Node s mb)
    | None => m !! mb = None
    end.
Proof.
  intros C L Hm S. pose proof S as [_ E]. rewrite (sorted_listing_unique m l Hm S) in *.
  exists (index_of mb (directed rv (listing m))). split.
  { exact (proj1 (proj2 (zset_sim k ho now (ZRank mb rv) d e (Some m) Logic.I Hm L (fun H => ltac:(discriminate H)) C))). }
  assert (E' : forall n, n ∈ directed rv (listing m) <-> m !! n_key n = Some (n_score n)).
  { intros n. by rewrite directed_In. }
  change (if rv then rev (listing m) else listing m) with (directed rv (listing m)).
  assert (I : forall l, match index_of mb l with Some i => exists s, l !! i = Some (Node s mb) | None => forall n, n ∈ l -> n_key n <> mb end).
  { clear. induction l as [|n l IH]; cbn; [intros n H; by apply elem_of_nil in H|].
    destruct (decide (n_key n = mb)) as [<-|H]; [exists (n_score n); by destruct n|].
    destruct (index_of mb l) as [i|]; cbn; [exact IH|]. intros x [->|Hx]%elem_of_cons; [done|by apply IH]. }
  specialize (I (directed rv (listing m))). destruct (index_of mb _) as [i|].
  - destruct I as [s Hs]. exists s. split; [|done]. apply elem_of_list_lookup_2, E' in Hs. exact Hs.
  - destruct (m !! mb) as [s|] eqn:Em; [|done]. destruct (I (Node s mb)); [|done]. apply E'. exact Em.
Qed.
Print Assumptions C33_zrank.
Definition ex_zops : list zset_op :=
  [ZAdd [Node (f64_of_Z 3) (bs "a"); Node (f64_of_Z (-1)) (bs "b"); Node (f64_of_Z 3) (bs "Z")] NxXx_None GtLt_None;
   ZRange 0 (-1) None false; ZRank (bs "a") true; ZRemScore (Unbounded, Excluded (f64_of_Z 3));
   ZRangeByScore (Included (f64_of_Z 0), Included (f64_of_Z 3)) (Some (1, 5)%Z) false; ZRemRank (-1) (-1); ZRem [bs "x"]].
Example C33_case :
  Forall zset_regular ex_zops /\
  snd (run_ops zset_step ex_zops None) =
    [OOk (PZadd (ZaddResp 0 3 3));
     OOk (PNodes [Node (f64_of_Z (-1)) (bs "b"); Node (f64_of_Z 3) (bs "Z"); Node (f64_of_Z 3) (bs "a")]);
     OOk (POptNat (Some 0%nat)); OOk (PNodes [Node (f64_of_Z (-1)) (bs "b")]); OOk (PNodes [Node (f64_of_Z 3) (bs "a")]);
     OOk (PNodes [Node (f64_of_Z 3) (bs "a")]); OOk (PLens (Lens 1 1))].
Proof.
  split; [|vm_compute; reflexivity].
  unfold ex_zops;   each_ok; try (by left); try lia; vm_compute; auto.
Qed.

(** ** C34: ZRANGEBYSCORE returns exactly the members of the interval.  Missing: reversed intervals (the
    handler panics, C35) and upper bounds that absorb 0.1 (below). *)
Theorem C34_zrangebyscore_partial (ho : horder) (now : N) (k : bytes) (r : bound f64 * bound f64) (rv : bool)
    (d : dict) (m : gmap bytes f64) (l : list node) (e : N) :
  contents d k = Some (zset_data m, e) -> lives now e -> no_nans m -> sorted_listing m l -> score_range_regular r ->
  snd (rapply ho now (RZRangeScore k r None rv) d) =
    OOk (PNodes (directed rv (List.filter (fun n => above_bound (fst r) (n_score n) && below_bound (snd r) (n_score n)) l))).
Proof.
  intros C L Hm S R. rewrite (sorted_listing_unique m l Hm S).
  exact (proj1 (proj2 (zset_sim k ho now (ZRangeByScore r None rv) d e (Some m) (conj R Logic.I) Hm L (fun H => ltac:(discriminate H)) C))).
Qed.
Print Assumptions C34_zrangebyscore_partial.
Example C34_case :
  score_range_regular (Excluded (f64_of_Z (-3)), Included (f64_of_Z 1000000)) /\
  score_range_regular (Included f64_ninf, Excluded (f64_of_Z 0)) /\ score_range_regular (Unbounded, Unbounded).
Proof. repeat split. Qed.
Theorem C34_absorbed_bound_refuted : forall z,
  z ∈ [f64_inf; f64_of_Z (10 ^ 17)] ->
  exists d, contents d (bs "z") = Some (zset_data {[bs "a" := z]}, 0%N) /\
    f64_le z z = true /\
    snd (rapply horder_default 0 (RZRangeScore (bs "z") (Unbounded, Included z) None false) d) = OOk (PNodes []).
Proof.
  intros z H. exists (Dict 0 {[bs "z" := Value (zset_data {[bs "a" := z]}) 0 0]}).
  repeat (apply elem_of_cons in H as [->|H]); [| |by apply elem_of_nil in H];
    (split; [|split]; apply (bool_decide_eq_true_1 _); vm_compute; reflexivity).
Qed.
Print Assumptions C34_absorbed_bound_refuted.

(** ** C35: replies without panics.  Missing: the requests shown to panic below, RESTORE, and sorted sets
    corrupted by ZADD INCR. *)
Theorem C35_no_panic_partial (ho : horder) (h : list (N * cmd)) :
  Forall (fun p => match snd p with CWrite w => calm_write w | CRead r => calm_read r end) h ->
  Forall (fun r => r <> OPanic) (snd (db_run ho h db_empty)).
Proof. intros H. apply db_run_calm; [done|]. intros k x e D. done. Qed.
Print Assumptions C35_no_panic_partial.
Example C35_case : Forall (fun p => match snd p with CWrite w => calm_write w | CRead r => calm_read r end)
  (ex_z ++ [(5%N, CRead (RZRangeLex (bs "z") (Included (bs "a"), Excluded (bs "b")) None true))]).
Proof. unfold ex_z; cbn [app]; each_ok; vm_compute; auto. Qed.
Theorem C35_panics_refuted : forall c,
  c ∈ [CRead (RZRangeScore (bs "z") (Included (f64_of_Z 5), Included (f64_of_Z 1)) None false);
       CRead (RZRangeScore (bs "z") (Excluded f64_inf, Excluded f64_inf) None false);
       CRead (RZRangeLex (bs "z") (Included (bs "b"), Included (bs "a")) None false);
       CRead (RZRangeLex (bs "z") (Excluded (bs "b"), Excluded (bs "b")) None false);
       CWrite (WZRemScore (bs "z") (Included (f64_of_Z 5), Included (f64_of_Z 1)) false);
       CWrite (WZRemLex (bs "z") (Included (bs "b"), Included (bs "a")) false);
       CWrite (WZAdd (bs "z") [Node S754_nan (bs "q")] NxXx_None GtLt_None false)] ->
  snd (db_cmd horder_default 5 c (fst (db_run horder_default ex_z db_empty))) = OPanic.
Proof.
  intros c H. repeat (apply elem_of_cons in H as [->|H]; [vm_compute; reflexivity|]). by apply elem_of_nil in H.
Qed.
Print Assumptions C35_panics_refuted.

(** ** C36: ZRANGEBYLEX is exact when all scores are equal. *)
Theorem C36_zrangebylex (ho : horder) (now : N) (k : bytes) (r : bound bytes * bound bytes) (lim : limit) (rv : bool)
    (d : dict) (m : gmap bytes f64) (l : list node) (e : N) :
  contents d k = Some (zset_data m, e) -> lives now e -> no_nans m -> equal_scores m -> sorted_listing m l ->
  lex_range_regular r -> limit_regular lim ->
  snd (rapply ho now (RZRangeLex k r lim rv) d) = OOk (PNodes (window lim (directed rv (by_lex r l)))).
Proof.
  intros C L Hm E S R Rl. rewrite (sorted_listing_unique m l Hm S). by apply (zrange_lex_spec ho now k r lim rv d m e).
Qed.
Print Assumptions C36_zrangebylex.
(** [by_lex] filters by the byte order of the specification. *)
Theorem C36_by_lex (r : bound bytes * bound bytes) (l : list node) (n : node) :
  n ∈ by_lex r l <-> n ∈ l /\
    match fst r with Unbounded => True | Included x => ~ bytes_before (n_key n) x | Excluded x => bytes_before x (n_key n) end /\
    match snd r with Unbounded => True | Included x => ~ bytes_before x (n_key n) | Excluded x => bytes_before (n_key n) x end.
Proof.
  assert (B : forall x y, bytes_beforeb x y = true <-> bytes_before x y)
    by (intros x y; by rewrite bytes_beforeb_cmp, bytes_before_cmp).
  unfold by_lex. rewrite elem_of_list_In, filter_In, andb_true_iff, <- elem_of_list_In.
  destruct r as [[|x|x] [|y|y]]; cbn [fst snd lex_above lex_below]; rewrite <- ?B, ?negb_true_iff, ?not_true_iff_false; tauto.
Qed.
Print Assumptions C36_by_lex.
Example C36_case :
  lex_range_regular (Included (bs "a"), Excluded (bs "ab")) /\
  equal_scores {[bs "a" := f64_of_Z 7; bs "aa" := f64_of_Z 7; bs "b" := f64_of_Z 7]} /\
  by_lex (Included (bs "a"), Excluded (bs "ab")) (listing {[bs "a" := f64_of_Z 7; bs "aa" := f64_of_Z 7; bs "b" := f64_of_Z 7]}) =
    [Node (f64_of_Z 7) (bs "a"); Node (f64_of_Z 7) (bs "aa")].
Proof.
  split; [by vm_compute|]. split; [|by vm_compute].
  assert (H : forall k s, ({[bs "a" := f64_of_Z 7; bs "aa" := f64_of_Z 7; bs "b" := f64_of_Z 7]} : gmap bytes f64) !! k = Some s -> s = f64_of_Z 7).
  { intros k s. rewrite !lookup_insert_Some, lookup_singleton_Some. naive_solver. }
  intros k k' s s' E E'. apply H in E as ->. by apply H in E' as ->.
Qed.

(** ** C37: removing by rank, score or lexicographic range removes exactly the members the same query shows
    (whatever the range; when the query panics the removal panics too and removes nothing). *)
Theorem C37_zremrange (ho : horder) (now : N) (w : wreq) (rd : rreq) (d : dict) (m : gmap bytes f64) (e : N) :
  range_read w = Some rd -> contents d (wkey w) = Some (zset_data m, e) -> lives now e -> no_nans m ->
  let '(d', r, _) := wapply now w d in
  (r = OPanic /\ snd (rapply ho now rd d) = OPanic /\ contents d' (wkey w) = Some (zset_data m, e)) \/
  exists gone, snd (rapply ho now rd d) = OOk (PNodes gone) /\ r = OOk (PNodes gone) /\
    contents d' (wkey w) = Some (zset_data (filter (fun p => p.1 ∉ map n_key gone) m), e).
Proof.
  intros RR C L Hm. destruct (zremrange_spec ho now w rd d m e RR C L Hm) as [_ H].
  destruct (wapply now w d) as [[d' r] u]. cbn [fst snd] in H.
  destruct H as [(H1 & H2 & H3)|(gone & H1 & H2 & H3)]; [by left|right; by exists gone].
Qed.
Print Assumptions C37_zremrange.
Example C37_case :
  range_read (WZRemRank (bs "z") (-2) (-1) false) = Some (RZRangeRank (bs "z") (-2) (-1) None false) /\
  let d := Dict 0 {[bs "z" := Value (zset_data {[bs "a" := f64_of_Z 1; bs "b" := f64_of_Z 2; bs "c" := f64_of_Z 0]}) 0 0]} in
  contents (fst (fst (wapply 0 (WZRemRank (bs "z") (-2) (-1) false) d))) (bs "z") = Some (zset_data {[bs "c" := f64_of_Z 0]}, 0%N).
Proof. split; [reflexivity|]. apply (bool_decide_eq_true_1 _); vm_compute; reflexivity. Qed.

(** ** C38: LIMIT is a window of the answer without LIMIT (offset at least 0; all three range queries). *)
Theorem C38_limit (ho : horder) (now : N) (d : dict) (m : gmap bytes f64) (e : N) (k : bytes) (o c : Z) (rv : bool) (rd : limit -> rreq) :
  (exists a b, rd = fun lim => RZRangeRank k a b lim rv) \/
  (exists r, rd = fun lim => RZRangeScore k r lim rv) \/
  (exists r, rd = fun lim => RZRangeLex k r lim rv) ->
  (0 <= o)%Z -> contents d k = Some (zset_data m, e) -> lives now e -> no_nans m ->
  match snd (rapply ho now (rd None) d) with
  | OOk (PNodes l) => snd (rapply ho now (rd (Some (o, c))) d) =
      OOk (PNodes (if (c <? 0)%Z then skipn (Z.to_nat o) l else firstn (Z.to_nat c) (skipn (Z.to_nat o) l)))
  | OPanic => snd (rapply ho now (rd (Some (o, c))) d) = OPanic
  | _ => False
  end.
Proof.
  intros Hrd Ho C L Hm. assert (C' : contents d k = stored zset_data e (Some m)) by done.
  destruct (get_stored _ _ _ _ _ _ L C') as (v & d1 & G & D & X & C1).
  assert (Ro : limit_regular (Some (o, c))) by done.
  destruct Hrd as [(a & b & ->)|[(r & ->)|(r & ->)]]; cbn [rapply]; cmd_unfold; rewrite G, D; unfold zset_data.
  - destruct (shape_rank a b _) as [x y]. set (it := List.filter _ (enumerate _)).
    assert (LE : (length it <= length (listing m))%nat).
    { unfold it. etransitivity; [apply filter_length_l|]. rewrite <- (map_length snd). unfold enumerate.
      rewrite enumerate_snd. destruct rv; [by rewrite rev_length|done]. }
    pose proof (limit_window (Some (o, c)) _ it Ro LE) as W. destruct (shape_limit (Some (o, c)) _) as [o' c'].
    cbn [shape_limit fst snd outcome_map]. rewrite W, no_window by done. cbn [window]. do 2 f_equal.
    destruct (c <? 0)%Z; by rewrite ?firstn_map, ?skipn_map, ?firstn_map.
  - destruct (bigger_range r) as [lo hi]. pose proof (fun (l : list node) H => limit_window (Some (o, c)) (length (listing m)) l Ro H) as W.
    destruct (shape_limit (Some (o, c)) _) as [o' c']. cbn [shape_limit].
    destruct (bt_range lo hi (listing m)) as [it|] eqn:BT; [|done]. apply bt_range_sub in BT. cbn [fst snd outcome_map].
    assert (LE : (length (List.filter (fun n => score_in r (n_score n)) (if rv then rev it else it)) <= length (listing m))%nat).
    { etransitivity; [apply filter_length_l|]. transitivity (length it); [destruct rv; [by rewrite rev_length|done]|].
      subst it. apply filter_length_l. }
    rewrite no_window by done. by rewrite W.
  - destruct (listing m) as [|n0 l0] eqn:El.
    { cbn. rewrite skipn_nil, firstn_nil. by destruct (c <? 0)%Z. }
    rewrite <- El. destruct (lex_range (n_score n0) r) as [lo hi].
    pose proof (fun (l : list node) H => limit_window (Some (o, c)) (length (listing m)) l Ro H) as W.
    destruct (shape_limit (Some (o, c)) _) as [o' c']. cbn [shape_limit].
    destruct (bt_range lo hi (listing m)) as [it|] eqn:BT; [|done]. apply bt_range_sub in BT. cbn [fst snd outcome_map].
    assert (LE : (length (if rv then rev it else it) <= length (listing m))%nat).
    { transitivity (length it); [destruct rv; [by rewrite rev_length|done]|]. subst it. apply filter_length_l. }
    rewrite no_window by done. by rewrite W.
Qed.
Print Assumptions C38_limit.
Example C38_case :
  let d := Dict 0 {[bs "z" := Value (zset_data {[bs "a" := f64_of_Z 1; bs "b" := f64_of_Z 2; bs "c" := f64_of_Z 0]}) 0 0]} in
  snd (rapply horder_default 0 (RZRangeRank (bs "z") 0 (-1) (Some (1, -1)%Z) true) d) =
    OOk (PNodes [Node (f64_of_Z 1) (bs "a"); Node (f64_of_Z 0) (bs "c")]).
Proof. vm_compute. reflexivity. Qed.
