(** C35, complete for sorted sets whose indexes agree: which requests panic. *)
From Verif Require Import ZsetInv PropZset PropScore PropExact.
From Verif Require TenthFacts.

Local Arguments dict_put : simpl never.
Local Arguments touch : simpl never.

(** ** The conditions *)
Definition bound_number (b : bound f64) : bool :=
  match b with Unbounded => true | Included x | Excluded x => negb (f64_is_nan x) end.
Definition score_trouble (r : bound f64 * bound f64) : bool :=
  negb (bound_number (fst r) && bound_number (snd r)) || too_far r.
Definition lex_trouble (r : bound bytes * bound bytes) : bool :=
  match r with
  | (Excluded a, Excluded b) => negb (bytes_beforeb a b)
  | (Included a, Included b) | (Included a, Excluded b) | (Excluded a, Included b) => bytes_beforeb b a
  | _ => false
  end.
(** ZADD: a NaN that is written next to another member; or, after a NaN was written as the only member, anything
    written. *)
Definition written_after_nan (nx : nx_xx) (gl : gt_lt) (k : bytes) (s : f64) (ns : list node) : bool :=
  existsb (fun n => code_zadd_table nx gl (if decide (n_key n = k) then Some s else None) (n_score n)) ns.
Fixpoint zadd_trouble (nx : nx_xx) (gl : gt_lt) (m : gmap bytes f64) (ns : list node) : bool :=
  match ns with
  | [] => false
  | n :: ns' =>
      if code_zadd_table nx gl (m !! n_key n) (n_score n) then
        if f64_is_nan (n_score n)
        then if decide (delete (n_key n) m = ∅) then written_after_nan nx gl (n_key n) (n_score n) ns' else true
        else zadd_trouble nx gl (<[n_key n := n_score n]> m) ns'
      else zadd_trouble nx gl m ns'
  end.
(** The scores shown under a key: none if the key is missing, nothing if another type is stored. *)
Definition shown_scores (o : option (data * N)) : option (gmap bytes f64) :=
  match o with
  | None => Some ∅
  | Some (DZSet h _, _) => Some (n_score <$> h)
  | Some _ => None
  end.
Definition panics (c : cmd) (o : option (data * N)) : Prop :=
  exists m, shown_scores o = Some m /\
  match c with
  | CRead (RZRangeScore _ r _ _) | CWrite (WZRemScore _ r _) => m <> ∅ /\ score_trouble r = true
  | CRead (RZRangeLex _ r _ _) | CWrite (WZRemLex _ r _) => m <> ∅ /\ lex_trouble r = true
  | CWrite (WZAdd _ ns nx gl _) => zadd_trouble nx gl m ns = true
  | _ => False
  end.
(** Bounds are binary64 numbers or NaN (as every text that parses, see C34_request_bounds); no ZADD INCR, no RESTORE. *)
Definition valid_bound (b : bound f64) : Prop :=
  match b with Unbounded => True | Included x | Excluded x => f64_valid x = true end.
Definition covered (c : cmd) : Prop :=
  match c with
  | CRead (RZRangeScore _ r _ _) | CWrite (WZRemScore _ r _) => valid_bound (fst r) /\ valid_bound (snd r)
  | CWrite (WZAdd _ _ _ _ incr) => incr = false
  | CWrite (WRestore _) => False
  | _ => True
  end.

(** ** Lemmas *)
Lemma scores_of_nodes m : n_score <$> nodes_of m = m.
Proof.
  apply map_eq. intros i. rewrite lookup_fmap, nodes_of_lookup. by destruct (m !! i).
Qed.
Lemma listing_nil m : no_nans m -> listing m = [] <-> m = ∅.
Proof.
  intros Hm. destruct (listing_spec m Hm) as (_ & _ & B). split; [|intros ->; apply listing_empty].
  intros E. apply map_eq. intros i. rewrite lookup_empty. destruct (m !! i) as [s|] eqn:Em; [|done].
  assert (Node s i ∈ listing m) as H by (by apply B). rewrite E in H. by apply elem_of_nil in H.
Qed.

Lemma score_search_none r l lo hi : valid_bound (fst r) -> valid_bound (snd r) -> nanless l -> l <> [] ->
  bigger_range r = (lo, hi) -> bt_range lo hi l = None <-> score_trouble r = true.
Proof.
  intros Va Vb Nl L B. unfold score_trouble.
  destruct (bound_number (fst r)) eqn:Na; [destruct (bound_number (snd r)) eqn:Nb|].
  - assert (Ga : good_bound (fst r)) by (destruct (fst r) as [|x|x]; cbn in *; [done|by apply negb_true_iff in Na..]).
    assert (Gb : good_bound (snd r)) by (destruct (snd r) as [|x|x]; cbn in *; [done|by apply negb_true_iff in Nb..]).
    pose proof (score_search_all r l lo hi Ga Gb Nl L B) as H. cbn [andb negb orb].
    destruct (bt_range lo hi l); [|done]. destruct H as [-> _]. done.
  - cbn [andb negb orb]. split; [done|]. intros _. unfold bt_range. destruct l as [|n l]; [done|].
    assert (E : bound_nan hi = true).
    { destruct r as [a b]. injection B as <- <-. cbn [fst snd] in *.
      destruct b as [|x|x]; [done| |]; cbn in Nb; apply negb_false_iff in Nb; destruct x; try discriminate Nb; done. }
    rewrite E, orb_true_r. by destruct (bt_range_invalid lo hi).
  - cbn [andb negb orb]. split; [done|]. intros _. unfold bt_range. destruct l as [|n l]; [done|].
    assert (E : bound_nan lo = true).
    { destruct r as [a b]. injection B as <- <-. cbn [fst snd] in *.
      destruct a as [|x|x]; [done| |]; cbn in Na; apply negb_false_iff in Na; by unfold bound_nan. }
    rewrite E. by destruct (bt_range_invalid lo hi).
Qed.

Lemma lex_trouble_regular r : lex_trouble r = false <-> lex_range_regular r.
Proof. destruct r as [[|a|a] [|b|b]]; cbn; try done. by destruct (bytes_beforeb a b). Qed.
Lemma lex_search_none s r l lo hi : not_nan s -> nanless l -> l <> [] ->
  lex_range s r = (lo, hi) -> bt_range lo hi l = None <-> lex_trouble r = true.
Proof.
  intros Hs Nl L B. destruct (lex_trouble r) eqn:T.
  - split; [done|]. intros _. destruct r as [a b]. injection B as <- <-. unfold bt_range. destruct l as [|n l]; [done|].
    replace (bt_range_invalid _ _) with true; [done|]. symmetry.
    unfold bt_range_invalid. destruct a as [|a|a], b as [|b|b]; cbn in T; try done; cbn; unfold node_cmp; cbn [n_score n_key];
      rewrite (f64_cmp_refl s Hs); try (apply bytes_beforeb_cmp, bytes_cmp_gt in T; by rewrite T).
    apply negb_true_iff, beforeb_not in T as [T|T]; [|].
    + apply bytes_cmp_gt in T. by rewrite T.
    + apply bytes_cmp_eq in T as ->. by rewrite (proj2 (bytes_cmp_eq a a) eq_refl).
  - apply lex_trouble_regular in T. rewrite (lex_search s r l lo hi T Hs Nl B). done.
Qed.

Lemma nan_alone nx gl k s ns u : f64_is_nan s = true ->
  snd (zadd_loop nx gl false (ZState {[k := Node s k]} [Node s k] u) ns) = written_after_nan nx gl k s ns.
Proof.
  intros N. revert u. induction ns as [|n ns IH]; intros u; [done|].
  cbn [zadd_loop written_after_nan existsb]. unfold zadd_node. cbn [z_hash z_value z_upd].
  assert (E : zadd_can nx gl (({[k := Node s k]} : gmap bytes node) !! n_key n) n =
              code_zadd_table nx gl (if decide (n_key n = k) then Some s else None) (n_score n)).
  { destruct (decide (n_key n = k)) as [K|K].
    - rewrite K, lookup_singleton. unfold zadd_can, code_zadd_table. destruct nx, gl; cbn; try done; by rewrite ?f64_gt_lt.
    - rewrite lookup_singleton_ne by done. unfold zadd_can, code_zadd_table. by destruct nx, gl. }
  rewrite E. destruct (code_zadd_table _ _ _ _); cbn [orb]; [|apply IH].
  assert (C : forall n', bt_clash n' [Node s k] = true).
  { intros n'. unfold bt_clash. cbn [existsb]. unfold node_nan at 2. cbn [n_score]. rewrite N. by rewrite orb_true_r. }
  destruct (decide (n_key n = k)) as [K|K].
  - rewrite K, lookup_singleton. unfold bt_remove. by rewrite C.
  - rewrite lookup_singleton_ne by done. unfold bt_insert. by rewrite C.
Qed.

Lemma zadd_loop_trouble nx gl ns m u : no_nans m ->
  snd (zadd_loop nx gl false (zrep m u) ns) = zadd_trouble nx gl m ns.
Proof.
  revert m u; induction ns as [|n ns IH]; intros m u Hm; [done|]. cbn [zadd_loop zadd_trouble].
  destruct (f64_is_nan (n_score n)) eqn:N.
  - unfold zadd_node, zrep. cbn [z_hash z_value z_upd]. rewrite zadd_can_table.
    destruct (code_zadd_table nx gl (m !! n_key n) (n_score n)); [|by apply (IH m u)].
    assert (Hd : no_nans (delete (n_key n) m)) by (by apply no_nans_delete).
    assert (I : bt_insert n (listing (delete (n_key n) m)) = if decide (delete (n_key n) m = ∅) then Some [n] else None).
    { pose proof (listing_nil _ Hd) as LN. unfold bt_insert. destruct (decide (delete (n_key n) m = ∅)) as [Z|Z].
      - by rewrite (proj2 LN Z).
      - destruct (listing (delete (n_key n) m)) as [|x l]; [by destruct Z; apply LN|]. cbn. unfold node_nan at 1. by rewrite N. }
    rewrite nodes_of_lookup. destruct (m !! n_key n) as [s0|] eqn:E; cbn [fmap option_fmap option_map].
    + rewrite (remove_listing m (n_key n) s0) by done. rewrite I. destruct (decide _) as [Z|Z]; [|done].
      replace (<[n_key n := n]> (nodes_of m)) with ({[n_key n := Node (n_score n) (n_key n)]} : gmap bytes node).
      * destruct n as [s k]. cbn [n_key n_score] in *. by apply (nan_alone nx gl k s ns (S u)).
      * apply map_eq. intros i. destruct (decide (i = n_key n)) as [->|Hi].
        { rewrite lookup_singleton, lookup_insert. by destruct n. }
        rewrite lookup_singleton_ne, lookup_insert_ne, nodes_of_lookup by done.
        assert (m !! i = None) as ->; [|done]. rewrite <- (lookup_delete_ne m (n_key n) i) by done. by rewrite Z.
    + rewrite (delete_notin m (n_key n) E) in I |- *. rewrite I. destruct (decide _) as [Z|Z]; [|done].
      replace (<[n_key n := n]> (nodes_of m)) with ({[n_key n := Node (n_score n) (n_key n)]} : gmap bytes node).
      * destruct n as [s k]. cbn [n_key n_score] in *. by apply (nan_alone nx gl k s ns (S u)).
      * subst m. destruct n. done.
  - rewrite zadd_node_rep by done. rewrite zadd_can_table.
    destruct (code_zadd_table _ _ _ _); [|by apply IH]. apply IH. by apply no_nans_insert.
Qed.

Lemma wapply_panics now w d : covered (CWrite w) -> good_at d (wkey w) ->
  snd (fst (wapply now w d)) = OPanic <-> panics (CWrite w) (view now d (wkey w)).
Proof.
  intros Co G. pose proof (good_inner d (wkey w)) as GI.
  assert (Q : forall o, (match w with WZAdd _ _ _ _ _ | WZRemScore _ _ _ | WZRemLex _ _ _ => False | _ => True end) -> panics (CWrite w) o -> False).
  { intros o H (m & _ & P). by destruct w. }
  assert (CW : (match w with WZAdd _ _ _ _ _ | WZRemScore _ _ _ | WZRemLex _ _ _ => False | _ => True end) ->
    snd (fst (wapply now w d)) = OPanic <-> panics (CWrite w) (view now d (wkey w))).
  { intros H. split; [|intros P; by destruct (Q _ H P)]. intros P. exfalso.
    apply (wapply_calm now w d); [|done|done]. by destruct w. }
  destruct w; try (by apply CW); clear CW Q; cbn [wapply wkey covered] in *; cmd_unfold.
  - (* ZADD *) subst incr. case_get; rewrite V.
    + specialize (GI v G E). change (v_data (touch now v)) with (v_data v). unfold panics, shown_scores.
      destruct (v_data v) as [| | | |h l]; cbn [fst snd outcome_map]; try (split; [done|by intros (? & [=] & _)]).
      destruct GI as (m & Hm & -> & ->). rewrite scores_of_nodes.
      pose proof (zadd_loop_trouble nx gl ns m 0 Hm) as T. unfold zrep in T.
      destruct (zadd_loop _ _ _ _ _) as [z p]. cbn [fst snd outcome_map] in *. subst p.
      destruct (zadd_trouble nx gl m ns) eqn:ZT; cbn [outcome_map fst snd].
      * split; [intros _; by exists m|done].
      * split; [done|]. intros (m' & [= <-] & H). congruence.
    + cbn [v_data fresh_value]. unfold panics, shown_scores.
      pose proof (zadd_loop_trouble nx gl ns ∅ 0 no_nans_empty) as T. unfold zrep in T.
      change (nodes_of ∅) with (∅ : gmap bytes node) in T. rewrite listing_empty in T.
      destruct (zadd_loop _ _ _ _ _) as [z p]. cbn [fst snd outcome_map] in *. subst p.
      destruct (zadd_trouble nx gl ∅ ns) eqn:ZT; cbn [outcome_map fst snd].
      * split; [intros _; by exists ∅|done].
      * split; [done|]. intros (m' & [= <-] & H). congruence.
  - (* by score *) case_get; rewrite V; [|split; [done|intros (m & [= <-] & Z & _); by destruct Z]].
    specialize (GI v G E). change (v_data (touch now v)) with (v_data v). unfold panics, shown_scores.
    destruct (v_data v) as [| | | |h l]; cbn [fst snd outcome_map]; try (split; [done|by intros (? & [=] & _)]).
    destruct GI as (m & Hm & -> & ->). rewrite scores_of_nodes. destruct (listing_spec m Hm) as (A0 & A1 & _). apply zsorted_nodup in A0.
    pose proof (listing_nil m Hm) as LN. destruct (bigger_range r) as [lo hi] eqn:BR.
    destruct (bt_range lo hi (listing m)) as [it|] eqn:BT.
    + split.
      * change (if rv then rev it else it) with (directed rv it). pose proof (bt_range_sub _ _ _ _ BT) as Ei.
        destruct (zgood_remove m (List.filter (fun n => score_in r (n_score n)) (directed rv it)) Hm) as (m' & Hm' & -> & _); [..|done].
        -- apply filter_nodup_l, directed_nodup. subst it. by apply filter_nodup_l.
        -- intros n Hn. apply elem_of_list_In, filter_In in Hn as [Hn _]. apply elem_of_list_In, directed_In in Hn. subst it.
           apply elem_of_list_In, filter_In in Hn as [Hn _]. by apply elem_of_list_In.
      * intros (m' & [= <-] & Z & T). exfalso. apply (score_search_none r (listing m) lo hi) in T; [congruence|by destruct Co..|done| |done].
        intros X. by apply Z, LN.
    + split; [|done]. intros _. exists m. split; [done|].
      assert (Z : listing m <> []) by (intros X; by rewrite X in BT). split; [intros X; by apply Z, LN|].
      by apply (score_search_none r (listing m) lo hi); destruct Co.
  - (* by lex *) case_get; rewrite V; [|split; [done|intros (m & [= <-] & Z & _); by destruct Z]].
    specialize (GI v G E). change (v_data (touch now v)) with (v_data v). unfold panics, shown_scores.
    destruct (v_data v) as [| | | |h l]; cbn [fst snd outcome_map]; try (split; [done|by intros (? & [=] & _)]).
    destruct GI as (m & Hm & -> & ->). rewrite scores_of_nodes. destruct (listing_spec m Hm) as (A0 & A1 & A2). apply zsorted_nodup in A0.
    pose proof (listing_nil m Hm) as LN. destruct (listing m) as [|n0 l0] eqn:El.
    { split; [done|]. intros (m' & [= <-] & Z & _). by destruct Z; apply LN. }
    assert (Hs : not_nan (n_score n0)) by (apply (Hm (n_key n0)); apply A2; left).
    assert (Z : listing m <> []) by (by rewrite El). rewrite <- El in *.
    destruct (lex_range (n_score n0) r) as [lo hi] eqn:LR.
    pose proof (lex_search_none (n_score n0) r (listing m) lo hi Hs A1 Z LR) as LS.
    destruct (bt_range lo hi (listing m)) as [it|] eqn:BT.
    + split.
      * change (if rv then rev it else it) with (directed rv it). pose proof (bt_range_sub _ _ _ _ BT) as Ei.
        destruct (zgood_remove m (directed rv it) Hm) as (m' & Hm' & -> & _); [..|done].
        -- apply directed_nodup. subst it. by apply filter_nodup_l.
        -- intros n Hn. apply directed_In in Hn. subst it. apply elem_of_list_In, filter_In in Hn as [Hn _]. by apply elem_of_list_In.
      * intros (m' & [= <-] & _ & T). apply LS in T. congruence.
    + split; [|done]. intros _. exists m. split; [done|]. split; [intros X; by apply Z, LN|]. by apply LS.
Qed.

Lemma rapply_panics ho now r d : covered (CRead r) -> good_at d (rkey r) ->
  snd (rapply ho now r d) = OPanic <-> panics (CRead r) (view now d (rkey r)).
Proof.
  intros Co G. pose proof (good_inner d (rkey r)) as GI.
  assert (CW : (match r with RZRangeScore _ _ _ _ | RZRangeLex _ _ _ _ => False | _ => True end) ->
    snd (rapply ho now r d) = OPanic <-> panics (CRead r) (view now d (rkey r))).
  { intros H. split; [|intros (m & _ & P); by destruct r]. intros P. exfalso.
    apply (rapply_calm ho now r d); [|done|done]. by destruct r. }
  destruct r; try (by apply CW); clear CW; cbn [rapply rkey covered] in *; cmd_unfold.
  - case_get; rewrite V; [|split; [done|intros (m & [= <-] & Z & _); by destruct Z]].
    specialize (GI v G E). change (v_data (touch now v)) with (v_data v). unfold panics, shown_scores.
    destruct (v_data v) as [| | | |h l]; cbn [fst snd outcome_map]; try (split; [done|by intros (? & [=] & _)]).
    destruct GI as (m & Hm & -> & ->). rewrite scores_of_nodes. destruct (listing_spec m Hm) as (A0 & A1 & _).
    pose proof (listing_nil m Hm) as LN. destruct (bigger_range r) as [lo hi] eqn:BR. destruct (shape_limit _ _) as [of ct].
    destruct (bt_range lo hi (listing m)) as [it|] eqn:BT.
    + split; [done|]. intros (m' & [= <-] & Z & T). exfalso.
      apply (score_search_none r (listing m) lo hi) in T; [congruence|by destruct Co..|done| |done]. intros X. by apply Z, LN.
    + split; [|done]. intros _. exists m. split; [done|].
      assert (Z : listing m <> []) by (intros X; by rewrite X in BT). split; [intros X; by apply Z, LN|].
      by apply (score_search_none r (listing m) lo hi); destruct Co.
  - case_get; rewrite V; [|split; [done|intros (m & [= <-] & Z & _); by destruct Z]].
    specialize (GI v G E). change (v_data (touch now v)) with (v_data v). unfold panics, shown_scores.
    destruct (v_data v) as [| | | |h l]; cbn [fst snd outcome_map]; try (split; [done|by intros (? & [=] & _)]).
    destruct GI as (m & Hm & -> & ->). rewrite scores_of_nodes. destruct (listing_spec m Hm) as (A0 & A1 & A2).
    pose proof (listing_nil m Hm) as LN. destruct (listing m) as [|n0 l0] eqn:El.
    { split; [done|]. intros (m' & [= <-] & Z & _). by destruct Z; apply LN. }
    assert (Hs : not_nan (n_score n0)) by (apply (Hm (n_key n0)); apply A2; left).
    assert (Z : listing m <> []) by (by rewrite El). rewrite <- El in *.
    destruct (lex_range (n_score n0) r) as [lo hi] eqn:LR. destruct (shape_limit _ _) as [of ct].
    pose proof (lex_search_none (n_score n0) r (listing m) lo hi Hs A1 Z LR) as LS.
    destruct (bt_range lo hi (listing m)) as [it|] eqn:BT.
    + split; [done|]. intros (m' & [= <-] & _ & T). apply LS in T. congruence.
    + split; [|done]. intros _. exists m. split; [done|]. split; [intros X; by apply Z, LN|]. by apply LS.
Qed.

(** ** C35: after every history without ZADD INCR, NaN scores and RESTORE, a command panics exactly when [panics]
    says so: a range over a non-empty sorted set whose bounds are reversed (scores: by more than the added 0.1)
    or not numbers, or a ZADD that writes a NaN next to another member. *)
Theorem C35_exactly_when (ho : horder) (h : list (N * cmd)) (now : N) (c : cmd) :
  Forall (fun p => match snd p with CWrite w => gentle w | CRead _ => True end) h -> covered c ->
  let b := fst (db_run ho h db_empty) in
  snd (db_cmd ho now c b) = OPanic <-> panics c (db_view now b (ckey c)).
Proof.
  intros H Co b.
  assert (B : forall k x e, db_contents b k = Some (x, e) -> zgood x) by (apply db_run_good; [done|]; by intros k x e D).
  destruct (db_cmd_refines_slot ho now c b) as [_ F]. rewrite F. unfold db_view.
  destruct c as [w|r]; cbn [flat_cmd ckey] in *.
  - rewrite (wapply_panics now w); [done|done|]. intros x e C. exact (B (wkey w) x e C).
  - rewrite (rapply_panics ho now r); [done|done|]. intros x e C. exact (B (rkey r) x e C).
Qed.
Print Assumptions C35_exactly_when.
(** The state of [C35_panics_refuted]: which commands panic there. *)
Example C35_exactly_when_case :
  score_trouble (Included (f64_of_Z 5), Included (f64_of_Z 1)) = true /\
  score_trouble (Included (f64_of_Z 1), Excluded (f64_of_Z 1)) = false /\
  score_trouble (Unbounded, Included S754_nan) = true /\
  lex_trouble (Excluded (bs "b"), Included (bs "b")) = false /\
  lex_trouble (Excluded (bs "b"), Excluded (bs "b")) = true /\
  zadd_trouble NxXx_None GtLt_None ∅ [Node S754_nan (bs "q")] = false /\
  zadd_trouble NxXx_None GtLt_None ∅ [Node S754_nan (bs "q"); Node (f64_of_Z 1) (bs "r")] = true /\
  zadd_trouble NxXx_Xx GtLt_None {[bs "a" := f64_of_Z 1]} [Node S754_nan (bs "q")] = false /\
  Forall (fun p => match snd p with CWrite w => gentle w | CRead _ => True end) ex_z.
Proof.
  do 8 (split; [apply (bool_decide_eq_true_1 _); vm_compute; reflexivity|]).
  apply (List.Forall_impl (P := fun p => match snd p with CWrite w => calm_write w | CRead r => calm_read r end)).
  - intros [t [w|r]]; cbn; [apply calm_gentle|done].
  - unfold ex_z. each_ok; vm_compute; auto.
Qed.
