(** Invariants and panics of sorted-set commands; lexicographic ranges; removal by range. *)
From Verif Require Export ZsetFacts.

Local Arguments dict_put : simpl never.
Local Arguments touch : simpl never.

Definition zgood (x : data) : Prop :=
  match x with
  | DZSet h l => exists m, no_nans m /\ h = nodes_of m /\ l = listing m
  | _ => True
  end.

Lemma zgood_agree h l : zgood (DZSet h l) -> indexes_agree h l.
Proof.
  intros (m & Hm & -> & ->). destruct (listing_sorted m Hm) as [A B].
  split; [done|]. split; [by apply listing_keys|]. split.
  - intros n. rewrite B, nodes_of_lookup. destruct (m !! n_key n) as [s|]; cbn; [|done].
    destruct n as [s' k]; cbn. split; intros [= ->]; done.
  - intros k n. rewrite nodes_of_lookup. destruct (m !! k); cbn; [|done]. by intros [= <-].
Qed.
Lemma agree_zgood h l : nanless l -> indexes_agree h l -> zgood (DZSet h l).
Proof.
  intros Nl (A & B & C & D). exists (n_score <$> h).
  assert (Hm : no_nans (n_score <$> h)).
  { intros k s E. rewrite lookup_fmap in E. destruct (h !! k) as [n|] eqn:En; [|done]. injection E as <-.
    pose proof (D _ _ En) as Ek. subst k. apply C in En. apply elem_of_list_In in En.
    rewrite Forall_forall in Nl. exact (Nl _ En). }
  split; [done|]. split.
  - apply map_eq. intros k. rewrite nodes_of_lookup, lookup_fmap. destruct (h !! k) as [n|] eqn:En; [|done]. cbn.
    pose proof (D _ _ En) as Ek. subst k. by destruct n.
  - apply listing_unique; [done|by apply zsorted_before|]. intros n. rewrite C, lookup_fmap.
    split; [by intros ->|]. destruct (h !! n_key n) as [n'|] eqn:En; [|done]. intros [= E].
    pose proof (D _ _ En) as Ek. destruct n, n'; cbn in *. by subst.
Qed.

(** Sublists of the listing can be removed one by one. *)
Lemma rank_scan_sub b e (l : list (N * node)) n : n ∈ rank_scan b e l -> n ∈ map snd l.
Proof.
  induction l as [|[i x] l IH]; cbn; [done|]. destruct (i <? b)%N; [intros H; right; by apply IH|].
  destruct (e <=? i)%N; [intros H; by apply elem_of_nil in H|]. rewrite !elem_of_cons. tauto.
Qed.
Lemma rank_scan_nodup b e (l : list (N * node)) : NoDup (map snd l) -> NoDup (rank_scan b e l).
Proof.
  induction l as [|[i x] l IH]; cbn; [constructor|]. intros H. inversion H as [|? ? Hx H']; subst.
  destruct (i <? b)%N; [by apply IH|]. destruct (e <=? i)%N; [constructor|].
  constructor; [|by apply IH]. intros F. by apply Hx, (rank_scan_sub b e).
Qed.
Lemma enumerate_snd {A} i (l : list A) : map snd (enumerate_from i l) = l.
Proof. revert i; induction l as [|x l IH]; intros i; cbn; [done|]. by rewrite IH. Qed.
Lemma bt_range_sub lo hi l it : bt_range lo hi l = Some it -> it = List.filter (fun n => above lo n && below hi n) l.
Proof.
  unfold bt_range. destruct l as [|x l]; [by intros [= <-]|]. repeat case_match; intros H9; try discriminate H9; by injection H9 as <-.
Qed.

Lemma directed_In {A} rv (l : list A) x : x ∈ directed rv l <-> x ∈ l.
Proof. destruct rv; cbn; [|done]. rewrite !elem_of_list_In. symmetry. apply in_rev. Qed.
Lemma directed_nodup {A} rv (l : list A) : NoDup l -> NoDup (directed rv l).
Proof. destruct rv; cbn; [|done]. rewrite !NoDup_ListNoDup. apply List.NoDup_rev. Qed.

Lemma zgood_remove m ns : no_nans m -> NoDup ns -> (forall n, n ∈ ns -> n ∈ listing m) ->
  exists m', no_nans m' /\ zremove_nodes (nodes_of m) (listing m) ns = (nodes_of m', listing m', ns, false) /\
    m' = without_members (map n_key ns) m.
Proof.
  intros Hm ND H. exists (without_members (map n_key ns) m).
  split; [by apply without_members_ok|]. split; [|done]. apply zremove_nodes_rep; [done|done|].
  intros n Hn. destruct (listing_spec m Hm) as (_ & _ & C). by apply C, H.
Qed.

Definition good_at (d : dict) (k : bytes) : Prop := forall x e, contents d k = Some (x, e) -> zgood x.

Lemma good_put k v d : zgood (v_data v) -> good_at (dict_put k v d) k.
Proof. intros H x e. rewrite contents_put. unfold content. by intros [= <- <-]. Qed.
Lemma good_inner d k v : good_at d k -> inner d !! k = Some v -> zgood (v_data v).
Proof. intros H E. apply (H (v_data v) (v_exp v)). unfold contents. by rewrite E. Qed.

Ltac solve_good :=
  rewrite ?dict_insert_put; cbn [fst snd outcome_map v_data with_data touch fresh_value];
  lazymatch goal with
  | G : good_at ?d ?k |- good_at ?d ?k => exact G
  | |- good_at (dict_put ?k _ _) ?k => apply good_put; cbn [v_data with_data touch fresh_value zgood] in *; try (exact Logic.I); try assumption; try congruence
  | |- context [match ?x with _ => _ end] => split_match; solve_good
  end.

Lemma zadd_good nx gl ns m : no_nans m -> Forall (fun n => not_nan (n_score n)) ns ->
  zgood (DZSet (z_hash (fst (zadd_loop nx gl false (ZState (nodes_of m) (listing m) 0) ns)))
               (z_value (fst (zadd_loop nx gl false (ZState (nodes_of m) (listing m) 0) ns)))) /\
  snd (zadd_loop nx gl false (ZState (nodes_of m) (listing m) 0) ns) = false.
Proof.
  intros Hm Hns. destruct (zadd_loop_rep nx gl ns m 0 Hm Hns) as (m' & u' & E & Hm' & _).
  unfold zrep in E. rewrite E. cbn. split; [|done]. by exists m'.
Qed.

Lemma wapply_good now w d : gentle w -> good_at d (wkey w) -> good_at (fst (fst (wapply now w d))) (wkey w).
Proof.
  intros Gt G. pose proof (good_inner d (wkey w)) as GI.
  destruct w; cbn [wapply wkey gentle] in *; try done; cmd_unfold.
  1: { unfold dict_remove. destruct (inner d !! k) as [v|]; cbn [fst snd]; intros x e; unfold contents; cbn; by rewrite lookup_delete. }
  all: try (case_get; [specialize (GI v G E)|]; solve_good; fail).
  - (* ZADD *) destruct Gt as [-> Hns].
    case_get; [specialize (GI v G E); pose proof GI as GI0; change (v_data (touch now v)) with (v_data v); destruct (v_data v) as [| | | |h l] eqn:D; rewrite <- ?D in GI0; try (exact (good_put k (touch now v) d GI0))|].
    + destruct GI as (m & Hm & -> & ->). destruct (zadd_good nx gl ns m Hm Hns) as [Z _].
      destruct (zadd_loop _ _ _ _ _) as [z p]. cbn [fst snd] in *. by apply good_put.
    + cbn [v_data fresh_value]. change (DZSet ∅ []) with (zset_data ∅).
      destruct (zadd_good nx gl ns ∅ no_nans_empty Hns) as [Z _]. change (nodes_of ∅) with (∅ : gmap bytes node) in Z.
      rewrite listing_empty in Z. destruct (zadd_loop _ _ _ _ _) as [z p]. cbn [fst snd] in *. by apply good_put.
  - (* ZREM *) case_get; [|solve_good]. specialize (GI v G E). pose proof GI as GI0. change (v_data (touch now v)) with (v_data v).
    destruct (v_data v) as [| | | |h l] eqn:D; rewrite <- ?D in GI0; try (exact (good_put k (touch now v) d GI0)).
    destruct GI as (m & Hm & -> & ->). rewrite zrem_loop_rep by done. cbn [fst snd]. apply good_put.
    exists (without_members ms m). split; [by apply without_members_ok|done].
  - (* ZREMRANGEBYRANK *) case_get; [|solve_good]. specialize (GI v G E). pose proof GI as GI0. change (v_data (touch now v)) with (v_data v).
    destruct (v_data v) as [| | | |h l] eqn:D; rewrite <- ?D in GI0; try (exact (good_put k (touch now v) d GI0)).
    destruct GI as (m & Hm & -> & ->). destruct (shape_rank _ _ _) as [x y].
    destruct (zgood_remove m (rank_scan x y (if rv then rev (enumerate (listing m)) else enumerate (listing m))) Hm) as (m' & Hm' & -> & _).
    + apply rank_scan_nodup. destruct (listing_spec m Hm) as (A0 & _). apply zsorted_nodup in A0.
      destruct rv; [rewrite map_rev|]; unfold enumerate; rewrite enumerate_snd; [|done]. by apply (directed_nodup true).
    + intros n Hn. apply rank_scan_sub in Hn. destruct rv; [rewrite map_rev in Hn|]; unfold enumerate in Hn;
        rewrite enumerate_snd in Hn; [|done]. by apply (directed_In true).
    + cbn [fst snd]. apply good_put. by exists m'.
  - (* ZREMRANGEBYSCORE *) case_get; [|solve_good]. specialize (GI v G E). pose proof GI as GI0. change (v_data (touch now v)) with (v_data v).
    destruct (v_data v) as [| | | |h l] eqn:D; rewrite <- ?D in GI0; try (exact (good_put k (touch now v) d GI0)).
    destruct GI as (m & Hm & -> & ->). destruct (bigger_range r) as [lo hi].
    destruct (bt_range lo hi (listing m)) as [it|] eqn:BT; [|exact (good_put k (touch now v) d GI0)].
    apply bt_range_sub in BT. destruct (listing_spec m Hm) as (A0 & _). apply zsorted_nodup in A0.
    change (if rv then rev it else it) with (directed rv it).
    destruct (zgood_remove m (List.filter (fun n => score_in r (n_score n)) (directed rv it)) Hm) as (m' & Hm' & -> & _).
    + apply filter_nodup_l, directed_nodup. subst it. by apply filter_nodup_l.
    + intros n Hn. apply elem_of_list_In, filter_In in Hn as [Hn _]. apply elem_of_list_In, directed_In in Hn. subst it.
      apply elem_of_list_In, filter_In in Hn as [Hn _]. by apply elem_of_list_In.
    + cbn [fst snd]. apply good_put. by exists m'.
  - (* ZREMRANGEBYLEX *) case_get; [|solve_good]. specialize (GI v G E). pose proof GI as GI0. change (v_data (touch now v)) with (v_data v).
    destruct (v_data v) as [| | | |h l] eqn:D; rewrite <- ?D in GI0; try (exact (good_put k (touch now v) d GI0)).
    destruct GI as (m & Hm & -> & ->). destruct (listing m) as [|n0 l0] eqn:Ll; [exact (good_put k (touch now v) d GI0)|].
    rewrite <- Ll. destruct (lex_range (n_score n0) r) as [lo hi].
    destruct (bt_range lo hi (listing m)) as [it|] eqn:BT; [|exact (good_put k (touch now v) d GI0)].
    apply bt_range_sub in BT. destruct (listing_spec m Hm) as (A0 & _). apply zsorted_nodup in A0.
    change (if rv then rev it else it) with (directed rv it).
    destruct (zgood_remove m (directed rv it) Hm) as (m' & Hm' & -> & _).
    + apply directed_nodup. subst it. by apply filter_nodup_l.
    + intros n Hn. apply directed_In in Hn. subst it. apply elem_of_list_In, filter_In in Hn as [Hn _]. by apply elem_of_list_In.
    + cbn [fst snd]. apply good_put. by exists m'.
Qed.

Lemma db_run_good ho h b :
  Forall (fun p => match snd p with CWrite w => gentle w | CRead _ => True end) h ->
  (forall k x e, db_contents b k = Some (x, e) -> zgood x) ->
  forall k x e, db_contents (fst (db_run ho h b)) k = Some (x, e) -> zgood x.
Proof. apply (db_run_keeps gentle zgood). intros now w d. apply wapply_good. Qed.

(** ** Lexicographic ranges *)
Lemma f64_eq_cmp x y : f64_eq x y = true <-> f64_cmp x y = Some Eq.
Proof. unfold f64_eq. by destruct (f64_cmp x y) as [[]|]. Qed.
Lemma beforeb_not x y : bytes_beforeb x y = false <-> bytes_cmp y x = Lt \/ bytes_cmp y x = Eq.
Proof.
  destruct (bytes_beforeb x y) eqn:E.
  - apply bytes_beforeb_cmp in E. split; [done|]. intros [H|H].
    + pose proof (proj2 (bytes_cmp_gt x y) H). congruence.
    + apply bytes_cmp_eq in H as ->. by rewrite (proj2 (bytes_cmp_eq x x) eq_refl) in E.
  - split; [|done]. intros _. destruct (bytes_cmp y x) eqn:C; [by right|by left|].
    apply bytes_cmp_gt, bytes_beforeb_cmp in C. congruence.
Qed.
Lemma lex_above_ok s lo n : f64_cmp s (n_score n) = Some Eq ->
  above (bound_map (Node s) lo) n = lex_above lo (n_key n).
Proof.
  intros E. destruct lo as [|x|x]; cbn; [done| |]; unfold node_cmp; cbn; rewrite E.
  - destruct (bytes_beforeb (n_key n) x) eqn:B; cbn.
    + apply bytes_beforeb_cmp, bytes_cmp_gt in B. by rewrite B.
    + apply beforeb_not in B as [-> | ->]; done.
  - destruct (bytes_beforeb x (n_key n)) eqn:B.
    + apply bytes_beforeb_cmp in B. by rewrite B.
    + destruct (bytes_cmp x (n_key n)) eqn:C; try done. apply bytes_beforeb_cmp in C. congruence.
Qed.
Lemma lex_below_ok s hi n : f64_cmp (n_score n) s = Some Eq ->
  below (bound_map (Node s) hi) n = lex_below hi (n_key n).
Proof.
  intros E. destruct hi as [|x|x]; cbn; [done| |]; unfold node_cmp; cbn; rewrite E.
  - destruct (bytes_beforeb x (n_key n)) eqn:B; cbn.
    + apply bytes_beforeb_cmp, bytes_cmp_gt in B. by rewrite B.
    + apply beforeb_not in B as [-> | ->]; done.
  - destruct (bytes_beforeb (n_key n) x) eqn:B.
    + apply bytes_beforeb_cmp in B. by rewrite B.
    + destruct (bytes_cmp (n_key n) x) eqn:C; try done. apply bytes_beforeb_cmp in C. congruence.
Qed.
Lemma f64_cmp_refl x : not_nan x -> f64_cmp x x = Some Eq.
Proof. intros H. apply fkey_nan in H as [a E]. rewrite f64_cmp_key, E. f_equal. by apply lex3_eq. Qed.

(** A regular interval is searched without panic. *)
Lemma lex_search s r l lo hi : lex_range_regular r -> not_nan s -> nanless l -> lex_range s r = (lo, hi) ->
  bt_range lo hi l = Some (List.filter (fun n => above lo n && below hi n) l).
Proof.
  destruct r as [a b]. intros R Hs Nl [= <- <-]. cbn [fst snd] in *.
  destruct l as [|n l]; [done|]. unfold bt_range. rewrite (nanless_existsb _ Nl). cbn [andb].
  replace (bt_range_invalid _ _) with false.
  2: { unfold bt_range_invalid. destruct a as [|a|a], b as [|b|b]; cbn in *; try done; unfold node_cmp; cbn [n_score n_key];
       rewrite f64_cmp_refl by done; try (apply beforeb_not in R as [-> | ->]; done).
       apply bytes_beforeb_cmp in R. by rewrite R. }
  replace (bound_nan _ || bound_nan _) with false; [done|].
  unfold bound_nan. destruct a as [|a|a], b as [|b|b]; cbn in *; try done; unfold node_nan; cbn [n_score];
    unfold not_nan in Hs; by rewrite Hs.
Qed.
Lemma lex_filter m s r lo hi : no_nans m -> (forall n, n ∈ listing m -> f64_eq s (n_score n) = true /\ f64_eq (n_score n) s = true) ->
  lex_range s r = (lo, hi) ->
  List.filter (fun n => above lo n && below hi n) (listing m) = by_lex r (listing m).
Proof.
  intros Hm Hs [= <- <-]. unfold by_lex. apply filter_ext_in. intros n Hn. apply elem_of_list_In in Hn.
  destruct (Hs n Hn) as [H1%f64_eq_cmp H2%f64_eq_cmp]. by rewrite (lex_above_ok _ _ _ H1), (lex_below_ok _ _ _ H2).
Qed.

Lemma by_lex_length r l : (length (by_lex r l) <= length l)%nat.
Proof. apply filter_length_l. Qed.

Lemma zrange_lex_spec ho now k r lim rv d m e :
  contents d k = Some (zset_data m, e) -> lives now e -> no_nans m -> equal_scores m ->
  lex_range_regular r -> limit_regular lim ->
  snd (rapply ho now (RZRangeLex k r lim rv) d) = OOk (PNodes (window lim (directed rv (by_lex r (listing m))))).
Proof.
  intros C L Hm Eq R Rl. assert (C' : contents d k = stored zset_data e (Some m)) by done.
  destruct (get_stored _ _ _ _ _ _ L C') as (v & d1 & G & D & X & C1).
  cbn [rapply]. cmd_unfold. rewrite G, D. unfold zset_data.
  destruct (listing_spec m Hm) as (A & A' & B).
  destruct (listing m) as [|n0 l0] eqn:El.
  { cbn [snd outcome_map fst]. unfold directed. destruct rv; cbn; by rewrite window_nil. }
  assert (S : forall n, n ∈ listing m -> f64_eq (n_score n0) (n_score n) = true /\ f64_eq (n_score n) (n_score n0) = true).
  { intros n Hn. rewrite El in Hn. apply B in Hn. assert (H0 : m !! n_key n0 = Some (n_score n0)) by (apply B; left).
    split; by eapply Eq. }
  rewrite <- El in *. destruct (lex_range (n_score n0) r) as [lo hi] eqn:LR.
  rewrite (lex_search (n_score n0) r (listing m) lo hi R); [|apply (Hm (n_key n0)); apply B; rewrite El; left|done|done].
  rewrite (lex_filter m (n_score n0) r lo hi Hm S LR).
  pose proof (limit_window lim (length (listing m)) (directed rv (by_lex r (listing m))) Rl) as W.
  destruct (shape_limit lim _) as [offset count]. cbn [fst snd outcome_map]. do 2 f_equal.
  apply W. unfold directed. destruct rv; rewrite ?rev_length; apply by_lex_length.
Qed.

(** ** Removing a range removes what the range query shows (any range) *)
Lemma no_window {A} len (l : list A) : (length l <= len)%nat ->
  take_N (N.of_nat len) (drop_N 0 l) = l.
Proof. intros H. rewrite take_N_nat, drop_N_nat. cbn [N.to_nat skipn]. apply firstn_all2. lia. Qed.

Lemma zremrange_spec ho now w rd d m e :
  range_read w = Some rd -> contents d (wkey w) = Some (zset_data m, e) -> lives now e -> no_nans m ->
  rkey rd = wkey w /\
  ((snd (rapply ho now rd d) = OPanic /\ snd (fst (wapply now w d)) = OPanic /\
    contents (fst (fst (wapply now w d))) (wkey w) = Some (zset_data m, e)) \/
   exists gone, snd (rapply ho now rd d) = OOk (PNodes gone) /\ snd (fst (wapply now w d)) = OOk (PNodes gone) /\
    contents (fst (fst (wapply now w d))) (wkey w) = Some (zset_data (without_members (map n_key gone) m), e)).
Proof.
  intros RR C L Hm.
  destruct w; cbn [range_read] in RR; try discriminate RR; destruct rv; try discriminate RR; injection RR as <-;
    cbn [rkey wkey rapply wapply] in *; (split; [done|]);
    (assert (C' : contents d k = stored zset_data e (Some m)) by done);
    destruct (get_stored _ _ _ _ _ _ L C') as (v & d1 & G & D & X & C1);
    destruct (listing_spec m Hm) as (A & A' & B); pose proof (zsorted_nodup _ A) as ND;
    cmd_unfold; rewrite G, D; unfold zset_data.
  - right. rewrite nodes_of_size, <- (listing_length m Hm).
    pose proof (rank_scan_slice start stop (listing m)) as RS. pose proof (enumerate_slice start stop (listing m)) as ES.
    destruct (shape_rank start stop (length (listing m))) as [x y]. rewrite RS. exists (slice start stop (listing m)).
    cbn [shape_limit fst snd outcome_map]. rewrite map_window, ES, no_window by apply slice_length. split; [done|].
    destruct (zgood_remove m (slice start stop (listing m)) Hm) as (m' & Hm' & -> & ->).
    + by apply slice_nodup.
    + intros n Hn. by eapply slice_In.
    + cbn [fst snd outcome_map]. rewrite contents_put. by subst e.
  - destruct (bigger_range r) as [lo hi]. destruct (bt_range lo hi (listing m)) as [it|] eqn:BT; [right|left; done].
    apply bt_range_sub in BT. cbn [shape_limit fst snd outcome_map].
    set (gone := List.filter (fun n => score_in r (n_score n)) it) in *. exists gone.
    assert (LE : (length gone <= length (listing m))%nat).
    { unfold gone. etransitivity; [apply filter_length_l|]. subst it. apply filter_length_l. }
    rewrite no_window by done. split; [done|].
    destruct (zgood_remove m gone Hm) as (m' & Hm' & -> & ->).
    + unfold gone. subst it. by do 2 apply filter_nodup_l.
    + intros n Hn. apply elem_of_list_In, filter_In in Hn as [Hn _]. subst it.
      apply filter_In in Hn as [Hn _]. by apply elem_of_list_In.
    + cbn [fst snd outcome_map]. rewrite contents_put. by subst e.
  - destruct (listing m) as [|n0 l0] eqn:El.
    { right. exists []. cbn [fst snd outcome_map map]. split; [done|]. split; [done|].
      rewrite C1. unfold zset_data. by rewrite without_members_nil, El. }
    rewrite <- El in *. destruct (lex_range (n_score n0) r) as [lo hi].
    destruct (bt_range lo hi (listing m)) as [it|] eqn:BT; [right|left; done].
    apply bt_range_sub in BT. cbn [shape_limit fst snd outcome_map]. exists it.
    assert (LE : (length it <= length (listing m))%nat) by (subst it; apply filter_length_l).
    rewrite no_window by done. split; [done|].
    destruct (zgood_remove m it Hm) as (m' & Hm' & -> & ->).
    + subst it. by apply filter_nodup_l.
    + intros n Hn. subst it. apply elem_of_list_In, filter_In in Hn as [Hn _]. by apply elem_of_list_In.
    + cbn [fst snd outcome_map]. rewrite contents_put. by subst e.
Qed.

(** ** Panics *)
Lemma lex_search_any s r l lo hi : lex_range_regular r -> not_nan s -> nanless l -> lex_range s r = (lo, hi) ->
  exists it, bt_range lo hi l = Some it.
Proof. intros. erewrite lex_search by eauto. eauto. Qed.

Lemma incr_no_panic x : data_as_i64 x <> OPanic.
Proof. destruct x as [[]| | | |]; cbn; try done; by destruct (atoi_i64 _). Qed.

Lemma outcome_map_panic {A B} (f : A -> B) o : o <> OPanic -> outcome_map f o <> OPanic.
Proof. by destruct o. Qed.

Ltac calm :=
  rewrite ?dict_insert_put; cbn [fst snd outcome_map];
  lazymatch goal with
  | |- OOk _ <> OPanic => discriminate
  | |- OErr _ <> OPanic => discriminate
  | H : data_as_i64 ?x = OPanic |- _ => exfalso; exact (incr_no_panic x H)
  | H : scalar_as_i64 ?x = OPanic |- _ => exfalso; exact (scalar_no_panic x H)
  | |- context [match ?x with _ => _ end] => split_match; calm
  end.

Lemma wapply_calm now w d : calm_write w -> good_at d (wkey w) -> snd (fst (wapply now w d)) <> OPanic.
Proof.
  intros Ca G. pose proof (good_inner d (wkey w)) as GI.
  destruct w; cbn [wapply wkey calm_write] in *; try done; cmd_unfold.
  1: { unfold dict_remove. destruct (inner d !! k); done. }
  all: try (clear GI; case_get; calm; fail).
  - destruct Ca as [-> Hns]. case_get.
    + specialize (GI v G E). change (v_data (touch now v)) with (v_data v).
      destruct (v_data v) as [| | | |h l]; try done.
      destruct GI as (m & Hm & -> & ->). destruct (zadd_good nx gl ns m Hm Hns) as [_ Z].
      destruct (zadd_loop _ _ _ _ _) as [z p]. cbn [fst snd] in *. by subst p.
    + cbn [v_data fresh_value]. destruct (zadd_good nx gl ns ∅ no_nans_empty Hns) as [_ Z].
      change (nodes_of ∅) with (∅ : gmap bytes node) in Z. rewrite listing_empty in Z.
      destruct (zadd_loop _ _ _ _ _) as [z p]. cbn [fst snd] in *. by subst p.
  - case_get; [|done]. specialize (GI v G E). change (v_data (touch now v)) with (v_data v).
    destruct (v_data v) as [| | | |h l]; try done. destruct GI as (m & Hm & -> & ->). by rewrite zrem_loop_rep.
  - case_get; [|done]. specialize (GI v G E). change (v_data (touch now v)) with (v_data v).
    destruct (v_data v) as [| | | |h l]; try done. destruct GI as (m & Hm & -> & ->).
    destruct (shape_rank _ _ _) as [x y].
    destruct (zgood_remove m (rank_scan x y (if rv then rev (enumerate (listing m)) else enumerate (listing m))) Hm) as (m' & Hm' & -> & _); [..|done].
    + apply rank_scan_nodup. destruct (listing_spec m Hm) as (A0 & _). apply zsorted_nodup in A0.
      destruct rv; [rewrite map_rev|]; unfold enumerate; rewrite enumerate_snd; [|done]. by apply (directed_nodup true).
    + intros n Hn. apply rank_scan_sub in Hn. destruct rv; [rewrite map_rev in Hn|]; unfold enumerate in Hn;
        rewrite enumerate_snd in Hn; [|done]. by apply (directed_In true).
  - case_get; [|done]. specialize (GI v G E). change (v_data (touch now v)) with (v_data v).
    destruct (v_data v) as [| | | |h l]; try done. destruct GI as (m & Hm & -> & ->).
    destruct (bigger_range r) as [lo hi] eqn:BR. destruct (listing_spec m Hm) as (A0 & A1 & _). apply zsorted_nodup in A0.
    destruct (score_search r (listing m) lo hi Ca A1 BR) as (it & BT & _). rewrite BT. apply bt_range_sub in BT.
    change (if rv then rev it else it) with (directed rv it).
    destruct (zgood_remove m (List.filter (fun n => score_in r (n_score n)) (directed rv it)) Hm) as (m' & Hm' & -> & _); [..|done].
    + apply filter_nodup_l, directed_nodup. subst it. by apply filter_nodup_l.
    + intros n Hn. apply elem_of_list_In, filter_In in Hn as [Hn _]. apply elem_of_list_In, directed_In in Hn. subst it.
      apply elem_of_list_In, filter_In in Hn as [Hn _]. by apply elem_of_list_In.
  - case_get; [|done]. specialize (GI v G E). change (v_data (touch now v)) with (v_data v).
    destruct (v_data v) as [| | | |h l]; try done. destruct GI as (m & Hm & -> & ->).
    destruct (listing_spec m Hm) as (A0 & A1 & A2). apply zsorted_nodup in A0.
    destruct (listing m) as [|n0 l0] eqn:El; [done|]. rewrite <- El in *.
    destruct (lex_range (n_score n0) r) as [lo hi] eqn:LR.
    destruct (lex_search_any (n_score n0) r (listing m) lo hi Ca) as [it BT]; [|done|done|].
    { apply (Hm (n_key n0)). apply A2. rewrite El. left. }
    rewrite BT. apply bt_range_sub in BT. change (if rv then rev it else it) with (directed rv it).
    destruct (zgood_remove m (directed rv it) Hm) as (m' & Hm' & -> & _); [..|done].
    + apply directed_nodup. subst it. by apply filter_nodup_l.
    + intros n Hn. apply directed_In in Hn. subst it. apply elem_of_list_In, filter_In in Hn as [Hn _]. by apply elem_of_list_In.
Qed.

Lemma rapply_calm ho now r d : calm_read r -> good_at d (rkey r) -> snd (rapply ho now r d) <> OPanic.
Proof.
  intros Ca G. pose proof (good_inner d (rkey r)) as GI.
  destruct r; cbn [rapply rkey calm_read] in *; try done; cmd_unfold.
  all: try (clear GI; case_get; calm; fail).
  - case_get; [|done]. specialize (GI v G E). change (v_data (touch now v)) with (v_data v).
    destruct (v_data v) as [| | | |h l]; try done. destruct GI as (m & Hm & -> & ->).
    destruct (listing_spec m Hm) as (A0 & A1 & A2).
    destruct (bigger_range r) as [lo hi] eqn:BR.
    destruct (score_search r (listing m) lo hi Ca A1 BR) as (it & -> & _).
    by destruct (shape_limit _ _).
  - case_get; [|done]. specialize (GI v G E). change (v_data (touch now v)) with (v_data v).
    destruct (v_data v) as [| | | |h l]; try done. destruct GI as (m & Hm & -> & ->).
    destruct (listing_spec m Hm) as (A0 & A1 & A2). destruct (listing m) as [|n0 l0] eqn:El; [done|]. rewrite <- El in *.
    destruct (lex_range (n_score n0) r) as [lo hi] eqn:LR. destruct (shape_limit _ _) as [o c].
    destruct (lex_search_any (n_score n0) r (listing m) lo hi Ca) as [it BT]; [|done|done|by rewrite BT].
    apply (Hm (n_key n0)). apply A2. rewrite El. left.
Qed.

Lemma calm_gentle w : calm_write w -> gentle w.
Proof. destruct w; cbn; tauto. Qed.

Lemma db_run_calm ho h b :
  Forall (fun p => match snd p with CWrite w => calm_write w | CRead r => calm_read r end) h ->
  (forall k x e, db_contents b k = Some (x, e) -> zgood x) ->
  Forall (fun r => r <> OPanic) (snd (db_run ho h b)).
Proof.
  revert b; induction h as [|[now c] h IH]; intros b H B; [constructor|].
  pose proof (Forall_inv H) as Hc. pose proof (Forall_inv_tail H) as Hh. cbn [snd] in Hc.
  assert (B1 : forall k x e, db_contents (fst (db_run ho [(now, c)] b)) k = Some (x, e) -> zgood x).
  { apply db_run_good; [|done]. constructor; [|constructor]. cbn. destruct c; [by apply calm_gentle|done]. }
  cbn [db_run] in *. destruct (db_cmd ho now c b) as [b1 r] eqn:E. cbn [fst] in B1.
  specialize (IH b1 Hh B1). destruct (db_run ho h b1) as [b2 rs]. cbn [snd] in *. constructor; [|done].
  destruct (db_cmd_refines_slot ho now c b) as [_ F]. rewrite E in F. cbn [snd] in F. rewrite F.
  destruct c as [w|rd]; cbn [flat_cmd ckey].
  - apply wapply_calm; [done|]. intros x e C. exact (B (wkey w) x e C).
  - apply rapply_calm; [done|]. intros x e C. exact (B (rkey rd) x e C).
Qed.
