(** C109: sorted sets exactly as the code has them. *)
From Verif Require Import SpecTwo ZsetInv PropZset PropTree MeaningFacts.
From Verif Require TenthFacts.

Local Arguments dict_put : simpl never.
Local Arguments touch : simpl never.

(** ** Tree operations are list operations *)
Lemma f64_eq_sym x y : f64_eq x y = f64_eq y x.
Proof.
  unfold f64_eq. rewrite !f64_cmp_key. destruct (fkey x) as [a|], (fkey y) as [b|]; try done.
  destruct (lex3 a b) eqn:E.
  - apply lex3_eq in E as ->. by rewrite (proj2 (lex3_eq b b) eq_refl).
  - by rewrite (proj2 (lex3_gt b a) E).
  - by rewrite (proj1 (lex3_gt a b) E).
Qed.
Lemma same_cmp a b : same_node a b = true <-> node_cmp a b = Some Eq.
Proof.
  unfold same_node, node_cmp, f64_eq. destruct (f64_cmp _ _) as [[]|]; cbn; try done.
  rewrite bool_decide_eq_true. split; [intros ->; f_equal; by apply bytes_cmp_eq|]. intros [= H]. by apply bytes_cmp_eq.
Qed.
Lemma same_sym a b : same_node a b = same_node b a.
Proof. unfold same_node. rewrite f64_eq_sym. f_equal. by apply bool_decide_ext. Qed.
Lemma same_false a b : node_lt a b -> same_node a b = false.
Proof.
  intros H. destruct (same_node a b) eqn:E; [|done]. apply same_cmp in E. unfold node_lt in H. congruence.
Qed.
Lemma drop_id n l : (forall x, x ∈ l -> same_node n x = false) -> drop_node n l = l.
Proof.
  induction l as [|a l IH]; intros H; [done|]. cbn. rewrite (H a (elem_of_list_here _ _)). cbn. f_equal. apply IH.
  intros x Hx. apply H. by right.
Qed.
Lemma clash_met n l : bt_clash n l = nan_met n l.
Proof. done. Qed.
Lemma met_nanless n l : nan_met n l = false -> l <> [] -> node_nan n = false /\ nanless l.
Proof.
  destruct l as [|a l]; [done|]. cbn. intros H _. apply orb_false_iff in H as [H1 H2]. split; [done|].
  apply list.Forall_forall. intros x Hx. destruct (node_nan x) eqn:E; [|done].
  assert (X : has_nan (a :: l) = true).
  { apply existsb_exists. exists x. split; [by apply elem_of_list_In|done]. }
  cbn in X. congruence.
Qed.
Lemma nanless_has l : nanless l -> has_nan l = false.
Proof. apply nanless_existsb. Qed.
Lemma del_drop n l : zsorted l -> nanless l -> node_nan n = false -> del n l = drop_node n l.
Proof.
  intros S Nl Nn. induction S as [|a l S IH H]; [done|]. inversion Nl as [|? ? Na Nl']; subst. cbn [del drop_node List.filter].
  rewrite list.Forall_forall in H.
  destruct (node_cmp_total n a Nn Na) as [c Hc]. rewrite Hc. destruct c.
  - rewrite (proj2 (same_cmp n a) Hc). cbn. symmetry. apply drop_id. intros x Hx. apply same_false.
    specialize (H x Hx). unfold node_lt in *. destruct (same_node a n) eqn:E.
    + apply same_cmp in E. by eapply node_cmp_eq_lt.
    + rewrite same_sym in E. apply same_cmp in Hc. congruence.
  - rewrite (same_false n a Hc). cbn. f_equal. symmetry. apply drop_id. intros x Hx. apply same_false.
    eapply node_lt_trans; [exact Hc|]. by apply H.
  - rewrite same_sym, (same_false a n (proj1 (node_cmp_gt n a) Hc)). cbn. f_equal. by apply IH.
Qed.
Lemma filter_all {A} (f : A -> bool) l : (forall x, x ∈ l -> f x = true) -> List.filter f l = l.
Proof.
  induction l as [|a l IH]; intros H; [done|]. cbn. rewrite (H a (elem_of_list_here _ _)). f_equal. apply IH.
  intros x Hx. apply H. by right.
Qed.
Lemma filter_none {A} (f : A -> bool) l : (forall x, x ∈ l -> f x = false) -> List.filter f l = [].
Proof.
  induction l as [|a l IH]; intros H; [done|]. cbn. rewrite (H a (elem_of_list_here _ _)). apply IH.
  intros x Hx. apply H. by right.
Qed.
Lemma beforeb_not_lt a b : node_lt b a -> node_beforeb a b = false.
Proof.
  intros H. destruct (node_beforeb a b) eqn:E; [|done]. apply node_beforeb_lt in E. by destruct (node_lt_asym _ _ H E).
Qed.
Lemma beforeb_lt a b : node_lt a b -> node_beforeb a b = true.
Proof. apply node_beforeb_lt. Qed.
Lemma ins_put n l : zsorted l -> nanless l -> node_nan n = false -> ins n l = insert_node n l.
Proof.
  intros S Nl Nn. unfold insert_node. induction S as [|a l S IH H]; [done|]. inversion Nl as [|? ? Na Nl']; subst. cbn [ins existsb List.filter].
  rewrite list.Forall_forall in H.
  destruct (node_cmp_total n a Nn Na) as [c Hc]. rewrite Hc. destruct c.
  - by rewrite (proj2 (same_cmp n a) Hc).
  - assert (L : forall x, x ∈ l -> node_lt n x) by (intros x Hx; eapply node_lt_trans; [exact Hc|by apply H]).
    rewrite (same_false n a Hc). cbn [orb].
    replace (existsb (same_node n) l) with false.
    2: { symmetry. apply Bool.not_true_is_false. intros E. apply existsb_exists in E as (x & Hx & E).
         rewrite (same_false n x) in E; [done|]. apply L. by apply elem_of_list_In. }
    rewrite (beforeb_not_lt a n Hc), (beforeb_lt n a Hc).
    rewrite (filter_none (fun x => node_beforeb x n)); [|intros x Hx; by apply beforeb_not_lt, L].
    rewrite filter_all; [done|]. intros x Hx. by apply beforeb_lt, L.
  - apply node_cmp_gt in Hc. rewrite same_sym, (same_false a n Hc). cbn [orb]. rewrite (beforeb_lt a n Hc), (beforeb_not_lt n a Hc), (IH Nl').
    by destruct (existsb (same_node n) l).
Qed.

Lemma remove_two n l : zsorted l -> bt_remove n l = if nan_met n l then None else Some (drop_node n l).
Proof.
  intros S. unfold bt_remove. rewrite clash_met. destruct (nan_met n l) eqn:E; [done|]. f_equal.
  destruct l as [|a l]; [done|]. destruct (met_nanless _ _ E) as [H1 H2]; [done|]. by apply del_drop.
Qed.
Lemma insert_two n l : zsorted l -> bt_insert n l = if nan_met n l then None else Some (insert_node n l).
Proof.
  intros S. unfold bt_insert. rewrite clash_met. destruct (nan_met n l) eqn:E; [done|]. f_equal.
  destruct l as [|a l]; [done|]. destruct (met_nanless _ _ E) as [H1 H2]; [done|]. by apply ins_put.
Qed.
Lemma zsorted_filter (f : node -> bool) l : zsorted l -> zsorted (List.filter f l).
Proof.
  induction 1 as [|a l S IH H]; [constructor|]. cbn. destruct (f a); [|done]. constructor; [done|].
  apply list.Forall_forall. intros x Hx. rewrite list.Forall_forall in H. apply H.
  apply elem_of_list_In, filter_In in Hx as [Hx _]. by apply elem_of_list_In.
Qed.
Lemma zsorted_tree l : zsorted l -> tree_ok l.
Proof.
  intros S. split; [done|]. destruct l as [|a [|b l]]; [left; constructor|right; by exists a|]. left.
  inversion S as [|? ? S' H]; subst.
  assert (X : forall x y, node_lt x y -> node_nan x = false /\ node_nan y = false).
  { intros x y. unfold node_lt, node_cmp, node_nan. destruct (f64_cmp (n_score x) (n_score y)) eqn:E; [|done]. intros _.
    rewrite f64_cmp_key in E. destruct (fkey (n_score x)) eqn:E1; [|done]. destruct (fkey (n_score y)) eqn:E2; [|done].
    split; apply fkey_nan; eauto. }
  rewrite list.Forall_forall in H. apply list.Forall_forall. intros x Hx. apply elem_of_cons in Hx as [->|Hx].
  - apply (X a b), H. left.
  - by apply (X a x), H.
Qed.
Lemma tree_zsorted l : tree_ok l -> zsorted l.
Proof. by intros []. Qed.
Lemma two_tree s : two_ok s -> zsorted (tw_shown (default (Two ∅ []) s)).
Proof. destruct s; cbn; [apply zsorted_before|]. intros _. constructor. Qed.

(** ** ZADD *)
Definition z_of (p : tally) : zstate := ZState (tw_book (ta_set p)) (tw_shown (ta_set p)) (ta_written p).
Lemma add_dead nx gl incr ns p : ta_dead p = true -> fold_left (add_one nx gl incr) ns p = p.
Proof. intros D. induction ns as [|n ns IH]; [done|]. cbn [fold_left]. unfold add_one at 2. by rewrite D. Qed.
Lemma can_table nx gl old n : zadd_can nx gl old n = code_zadd_table nx gl (n_score <$> old) (n_score n).
Proof. unfold zadd_can, code_zadd_table. destruct nx, gl, old as [o|]; cbn; try done; by rewrite ?f64_gt_lt. Qed.
Lemma zadd_node_two nx gl incr p n : zsorted (tw_shown (ta_set p)) -> ta_dead p = false ->
  zadd_node nx gl incr (z_of p) n = (z_of (add_one nx gl incr p n), ta_dead (add_one nx gl incr p n)).
Proof.
  destruct p as [[book l] w dead]. cbn [ta_set tw_shown ta_dead]. intros S ->. unfold zadd_node, z_of, add_one.
  cbn [ta_set tw_book tw_shown ta_written ta_dead z_hash z_value z_upd]. rewrite can_table.
  destruct (code_zadd_table _ _ _ _); [|done]. destruct n as [s k]. cbn [n_key n_score].
  destruct (book !! k) as [o|].
  - rewrite (remove_two _ _ S). destruct (nan_met o l); cbn [ta_set tw_book tw_shown ta_written ta_dead]; [done|].
    rewrite insert_two by (by apply zsorted_filter). by destruct (nan_met _ _).
  - rewrite (insert_two _ _ S). by destruct (nan_met _ _).
Qed.
Lemma zadd_loop_two nx gl incr ns p : zsorted (tw_shown (ta_set p)) -> ta_dead p = false ->
  zadd_loop nx gl incr (z_of p) ns = (z_of (fold_left (add_one nx gl incr) ns p), ta_dead (fold_left (add_one nx gl incr) ns p)).
Proof.
  revert p; induction ns as [|n ns IH]; intros p S D; cbn [zadd_loop fold_left]; [by rewrite D|].
  pose proof (zadd_loop_ok nx gl incr [n] (z_of p) (zsorted_tree _ S)) as T. cbn [zadd_loop] in T.
  rewrite (zadd_node_two nx gl incr p n S D) in *. destruct (ta_dead (add_one nx gl incr p n)) eqn:E.
  - by rewrite add_dead, E.
  - cbn [fst] in T. apply IH; [|done]. apply tree_zsorted. exact T.
Qed.

(** ** ZREM *)
Lemma rem_dead ms t : fold_left rem_one ms (t, true) = (t, true).
Proof. induction ms as [|m ms IH]; [done|]. cbn [fold_left]. unfold rem_one at 2. by destruct t. Qed.
Lemma zrem_loop_two ms book l : zsorted l ->
  let p := fold_left rem_one ms (Two book l, false) in
  zrem_loop book l ms = (tw_book (fst p), tw_shown (fst p), snd p).
Proof.
  revert book l; induction ms as [|m ms IH]; intros book l S; cbn [zrem_loop fold_left]; [done|].
  cbn [rem_one]. destruct (book !! m) as [o|]; [|by apply IH].
  rewrite (remove_two _ _ S). destruct (nan_met o l).
  - by rewrite rem_dead.
  - apply IH. by apply zsorted_filter.
Qed.

(** ** Removals *)
Lemma firsts_in l x : x ∈ firsts l <-> x ∈ l.
Proof.
  induction l as [|a l IH]; [done|]. cbn [firsts]. rewrite !elem_of_cons.
  rewrite (elem_of_list_In (List.filter _ _)), filter_In, <- elem_of_list_In, IH, negb_true_iff, bool_decide_eq_false. split; [tauto|].
  intros [->|H]; [by left|]. destruct (decide (x = a)); tauto.
Qed.
Lemma recorded_cons book a ks :
  recorded book (a :: ks) = match book !! a with Some o => o :: recorded book ks | None => recorded book ks end.
Proof. unfold recorded. cbn. by destruct (book !! a). Qed.
Lemma recorded_delete book k ks : recorded (delete k book) ks = recorded book (List.filter (fun y => negb (bool_decide (y = k))) ks).
Proof.
  induction ks as [|a ks IH]; [done|]. rewrite recorded_cons. cbn [List.filter]. destruct (decide (a = k)) as [->|N].
  - rewrite lookup_delete, bool_decide_true by done. exact IH.
  - rewrite lookup_delete_ne, bool_decide_false by done. cbn [negb]. rewrite recorded_cons. destruct (book !! a); by rewrite IH.
Qed.
Lemma struck_cons x ms m : struck (x :: ms) m = struck ms (delete x m).
Proof.
  unfold struck. apply map_eq. intros k. apply option_eq. intros s.
  rewrite !map_filter_lookup_Some, lookup_delete_Some. cbn. rewrite not_elem_of_cons. naive_solver.
Qed.
Lemma struck_nil m : struck [] m = m.
Proof. apply map_filter_id. intros. cbn. apply not_elem_of_nil. Qed.
Lemma zremove_nodes_two ns book l : zsorted l -> nanless l -> nanless ns ->
  zremove_nodes book l ns =
    (struck (map n_key ns) book, List.filter (fun x => negb (existsb (same_node x) ns)) l,
     recorded book (firsts (map n_key ns)), false).
Proof.
  intros S Nl Nn. revert book l S Nl; induction Nn as [|n ns Hn Nn IH]; intros book l S Nl; cbn [zremove_nodes map firsts].
  - rewrite struck_nil, filter_all by done. done.
  - rewrite (remove_two _ _ S). replace (nan_met n l) with false.
    2: { destruct l; [done|]. unfold nan_met. rewrite (nanless_has _ Nl). unfold node_nan in Hn. by rewrite Hn. }
    rewrite IH; [|by apply zsorted_filter|].
    2: { apply list.Forall_forall. intros x Hx. apply elem_of_list_In, filter_In in Hx as [Hx _]. rewrite list.Forall_forall in Nl.
         apply Nl. by apply elem_of_list_In. }
    rewrite struck_cons, recorded_delete.
    assert (E1 : List.filter (fun x => negb (existsb (same_node x) ns)) (drop_node n l) =
                 List.filter (fun x => negb (existsb (same_node x) (n :: ns))) l).
    { unfold drop_node. apply filter_filter. intros x _. cbn [existsb]. rewrite (same_sym x n). by destruct (same_node n x). }
    rewrite E1, recorded_cons. by destruct (book !! n_key n).
Qed.

(** ** Searches *)
Lemma score_two r l lo hi : valid_bound (fst r) -> valid_bound (snd r) -> zsorted l -> bigger_range r = (lo, hi) ->
  match bt_range lo hi l with
  | None => score_dies r l = true
  | Some it => score_dies r l = false /\ List.filter (fun n => score_in r (n_score n)) it = score_found r l
  end.
Proof.
  intros Va Vb S B. destruct (zsorted_tree l S) as [_ [Nl|[n ->]]].
  - destruct l as [|a l]; [done|]. assert (L : a :: l <> []) by done. unfold score_dies. rewrite (nanless_has _ Nl). cbn [andb]. rewrite orb_false_r.
    pose proof (score_search_none r (a :: l) lo hi Va Vb Nl L B) as H1.
    destruct (bt_range lo hi (a :: l)) as [it|] eqn:E; [|by apply H1].
    assert (T : score_trouble r = false) by (destruct (score_trouble r); [by discriminate (proj2 H1 eq_refl)|done]).
    split; [done|]. unfold score_trouble in T. apply orb_false_iff in T as [T1 T2]. apply negb_false_iff, andb_true_iff in T1 as [Ta Tb].
    assert (Ga : good_bound (fst r)) by (destruct (fst r) as [|x|x]; cbn in *; [done|by apply negb_true_iff in Ta..]).
    assert (Gb : good_bound (snd r)) by (destruct (snd r) as [|x|x]; cbn in *; [done|by apply negb_true_iff in Tb..]).
    pose proof (score_search_all r (a :: l) lo hi Ga Gb Nl L B) as H. rewrite E in H. by destruct H as [_ ->].
  - destruct (node_nan n) eqn:Nn.
    + unfold score_dies. assert (Hn : has_nan [n] = true) by (cbn; unfold node_nan in Nn; by rewrite Nn). rewrite Hn. cbn [andb].
      destruct r as [a b]. injection B as <- <-. unfold bt_range. cbn [existsb]. rewrite Nn. cbn [orb andb].
      destruct a as [|a|a], b as [|b|b]; cbn [fst snd bound_map open_ended negb]; rewrite ?orb_true_r; try (by repeat case_match).
      cbn. done.
    + assert (Nl : nanless [n]) by (by repeat constructor).
      assert (L : [n] <> []) by done. unfold score_dies. rewrite (nanless_has _ Nl). cbn [andb]. rewrite orb_false_r.
      pose proof (score_search_none r [n] lo hi Va Vb Nl L B) as H1.
      destruct (bt_range lo hi [n]) as [it|] eqn:E; [|by apply H1].
      assert (T : score_trouble r = false) by (destruct (score_trouble r); [by discriminate (proj2 H1 eq_refl)|done]).
      split; [done|]. unfold score_trouble in T. apply orb_false_iff in T as [T1 T2]. apply negb_false_iff, andb_true_iff in T1 as [Ta Tb].
      assert (Ga : good_bound (fst r)) by (destruct (fst r) as [|x|x]; cbn in *; [done|by apply negb_true_iff in Ta..]).
      assert (Gb : good_bound (snd r)) by (destruct (snd r) as [|x|x]; cbn in *; [done|by apply negb_true_iff in Tb..]).
      pose proof (score_search_all r [n] lo hi Ga Gb Nl L B) as H. rewrite E in H. by destruct H as [_ ->].
Qed.

Lemma lex_two r n0 l0 lo hi : zsorted (n0 :: l0) -> lex_range (n_score n0) r = (lo, hi) ->
  match bt_range lo hi (n0 :: l0) with
  | None => lex_dies r (n0 :: l0) = true
  | Some it => lex_dies r (n0 :: l0) = false /\ it = lex_found r (n0 :: l0)
  end.
Proof.
  intros S B. destruct (node_nan n0) eqn:N0.
  - assert (l0 = []) as ->.
    { destruct (zsorted_tree _ S) as [_ [Nl|[n [= -> ->]]]]; [|done]. inversion Nl. congruence. }
    unfold lex_dies. assert (Hn : has_nan [n0] = true) by (cbn; unfold node_nan in N0; by rewrite N0). rewrite Hn. cbn [andb].
    assert (Q : f64_eq (n_score n0) (n_score n0) = false).
    { unfold node_nan in N0. destruct (n_score n0); try done. }
    destruct r as [a b]. injection B as <- <-. unfold bt_range. cbn [existsb]. rewrite N0. cbn [orb andb].
    destruct a as [|a|a], b as [|b|b]; cbn [fst snd bound_map open_ended negb]; rewrite ?orb_true_r; try (by repeat case_match).
    cbn. by rewrite Q.
  - assert (Nl : nanless (n0 :: l0)).
    { destruct (zsorted_tree _ S) as [_ [Nl|[n [= -> ->]]]]; [done|]. by repeat constructor. }
    assert (L : n0 :: l0 <> []) by done. unfold lex_dies. rewrite (nanless_has _ Nl). cbn [andb]. rewrite orb_false_r.
    pose proof (lex_search_none (n_score n0) r (n0 :: l0) lo hi N0 Nl L B) as H1.
    destruct (bt_range lo hi (n0 :: l0)) as [it|] eqn:E; [|by apply H1].
    assert (T : lex_trouble r = false) by (destruct (lex_trouble r); [by discriminate (proj2 H1 eq_refl)|done]).
    split; [done|]. apply bt_range_sub in E. subst it. unfold lex_found. apply filter_ext_in. intros n Hn. apply elem_of_list_In in Hn.
    destruct r as [a b]. injection B as <- <-. cbn [fst snd].
    assert (C : f64_cmp (n_score n0) (n_score n) = Some Eq \/ f64_cmp (n_score n0) (n_score n) = Some Lt).
    { apply elem_of_cons in Hn as [->|Hn]; [left; by apply f64_cmp_refl|]. inversion S as [|? ? _ H]; subst.
      rewrite list.Forall_forall in H. specialize (H n Hn). unfold node_lt, node_cmp in H. destruct (f64_cmp _ _) as [[]|]; auto. }
    assert (X : f64_eq (n_score n0) (n_score n) = f64_eq (n_score n) (n_score n0)) by apply f64_eq_sym.
    destruct C as [C|C].
    + assert (C' : f64_cmp (n_score n) (n_score n0) = Some Eq) by (apply f64_eq_cmp; rewrite <- X; by apply f64_eq_cmp).
      rewrite (lex_above_ok _ _ _ C), (lex_below_ok _ _ _ C'). unfold f64_eq. by rewrite C.
    + assert (G : f64_cmp (n_score n) (n_score n0) = Some Gt).
      { rewrite f64_cmp_key in *. destruct (fkey (n_score n0)) as [x|], (fkey (n_score n)) as [y|]; try done.
        injection C as C. f_equal. by apply lex3_gt. }
      unfold f64_eq. rewrite C.
      assert (A1 : above (bound_map (Node (n_score n0)) a) n = true) by (destruct a; cbn; unfold node_cmp; cbn; by rewrite ?C).
      rewrite A1. destruct b; cbn; unfold node_cmp; cbn; by rewrite ?G.
Qed.

Lemma limited_ok lim len l : (length l <= len)%nat ->
  let '(offset, count) := shape_limit lim len in take_N count (drop_N offset l) = limited len lim l.
Proof.
  intros H. destruct lim as [[o c]|]; [|exact (limit_window None len l Logic.I H)]. cbn [limited].
  set (o' := if (0 <=? o)%Z then o else Z.max 0 (as_i64 (Z.of_nat len - o))).
  assert (P : (0 <= o')%Z) by (unfold o'; destruct (0 <=? o)%Z eqn:E; lia).
  pose proof (limit_window (Some (o', c)) len l P H) as W.
  replace (shape_limit (Some (o, c)) len) with (shape_limit (Some (o', c)) len); [exact W|].
  unfold shape_limit. replace (o' <? 0)%Z with false by lia. unfold o'. destruct (0 <=? o)%Z eqn:E.
  - by replace (o <? 0)%Z with false by lia.
  - by replace (o <? 0)%Z with true by lia.
Qed.

Lemma slice_as_scan n a b l :
  let '(s, e) := shape_rank a b n in rank_scan s e (enumerate l) = slice_as n a b l.
Proof.
  unfold slice_as. rewrite positions_interval. unfold shape_rank, from_end.
  replace (Z.of_nat n + a)%Z with (a + Z.of_nat n)%Z by lia. replace (Z.of_nat n + b)%Z with (b + Z.of_nat n)%Z by lia.
  set (a' := if (a <? 0)%Z then (a + Z.of_nat n)%Z else a). set (b' := if (b <? 0)%Z then (b + Z.of_nat n)%Z else b). clearbody a' b'.
  destruct ((Z.of_nat n <=? a')%Z || (b' <? 0)%Z || (b' <? a')%Z) eqn:E.
  - unfold enumerate. rewrite rank_scan_interval. replace (Z.to_nat (Z.min _ _ - _ + 1)) with O by lia. cbn. done.
  - unfold enumerate. rewrite rank_scan_interval. apply orb_false_iff in E as [E E3]. apply orb_false_iff in E as [E1 E2].
    apply Z.leb_gt in E1. apply Z.ltb_ge in E2, E3.
    f_equal; [|f_equal]; destruct (Z.ltb_spec a' 0), (Z.leb_spec (Z.of_nat n) b'); lia.
Qed.
Lemma slice_as_sub n a b l x : x ∈ slice_as n a b l -> x ∈ l.
Proof.
  unfold slice_as. rewrite positions_interval. intros H. apply elem_of_list_In in H. apply elem_of_list_In.
  rewrite <- (firstn_skipn (Z.to_nat (from_end n a - 0)) l). apply in_or_app. right.
  rewrite <- (firstn_skipn (Z.to_nat (Z.min (Z.of_nat n - 1) (from_end n b) - Z.max (from_end n a) 0 + 1)) (skipn _ l)). apply in_or_app. by left.
Qed.
Lemma slice_as_all a b l : slice_as (length l) a b l = slice a b l.
Proof.
  pose proof (slice_as_scan (length l) a b l) as H. pose proof (rank_scan_slice a b l) as H'.
  destruct (shape_rank a b (length l)). congruence.
Qed.

(** Removing any selection of the listed nodes. *)
Lemma remove_two_nodes gone book l : zsorted l -> (forall x, x ∈ gone -> x ∈ l) ->
  exists h', zremove_nodes book l gone =
    (h', tw_shown (fst (remove_nodes gone (Two book l))),
     match snd (remove_nodes gone (Two book l)) with OOk (PNodes ns) => ns | _ => [] end,
     match snd (remove_nodes gone (Two book l)) with OPanic => true | _ => false end) /\
    h' = tw_book (fst (remove_nodes gone (Two book l))) /\
    (snd (remove_nodes gone (Two book l)) = OPanic \/ exists ns, snd (remove_nodes gone (Two book l)) = OOk (PNodes ns)).
Proof.
  intros S Sub. eexists. split; [|split; [reflexivity|]].
  - destruct gone as [|n gone]; [done|]. cbn [remove_nodes]. destruct (has_nan l) eqn:E; cbn [fst snd tw_book tw_shown].
    + cbn [zremove_nodes]. rewrite (remove_two _ _ S). destruct l as [|a l]; [done|]. unfold nan_met. rewrite E, orb_true_r. done.
    + assert (Nl : nanless l).
      { apply list.Forall_forall. intros x Hx. destruct (node_nan x) eqn:X; [|done].
        assert (Y : has_nan l = true) by (apply existsb_exists; exists x; split; [by apply elem_of_list_In|done]). congruence. }
      apply zremove_nodes_two; [done|done|]. apply list.Forall_forall. intros x Hx. rewrite list.Forall_forall in Nl. apply Nl. by apply Sub.
  - destruct gone as [|n gone]; [right; by eexists|]. cbn [remove_nodes]. destruct (has_nan l); [by left|right; by eexists].
Qed.

(** ** One command *)
Lemma filter_sub {A} (f : A -> bool) l x : x ∈ List.filter f l -> x ∈ l.
Proof. rewrite !elem_of_list_In, filter_In. tauto. Qed.

Lemma two_sim k ho now o d e s :
  two_fits o -> two_ok s ->
  lives now e -> (s = None -> e = 0%N) -> contents d k = stored two_data e s ->
  contents (fst (flat_cmd ho now (two_cmd k o) d)) k = stored two_data e (fst (two_step o s)) /\
  snd (flat_cmd ho now (two_cmd k o) d) = snd (two_step o s) /\
  (fst (two_step o s) = None -> e = 0%N) /\ two_ok (fst (two_step o s)).
Proof.
  intros R I L N C.
  assert (G0 : contents (fst (flat_cmd ho now (two_cmd k o) d)) k = stored two_data e (fst (two_step o s)) /\
    snd (flat_cmd ho now (two_cmd k o) d) = snd (two_step o s) /\ (fst (two_step o s) = None -> e = 0%N)).
  { pose proof (get_stored _ _ _ _ _ _ L C) as G. pose proof (two_tree s I) as S.
    destruct o as [ns nx gl incr|ms|a b|r|r|mb rv|a b lim rv|r lim rv|r lim rv]; cbn [two_cmd flat_cmd wapply rapply two_fits] in *; cmd_unfold.
    - destruct (goi_stored two_data (Two ∅ []) _ _ _ _ _ L N C) as (w & d2 & GI & DI & XI & CI).
      change (DZSet ∅ []) with (two_data (Two ∅ [])). rewrite GI, DI. cbn [two_step]. set (t := default (Two ∅ []) s) in *. unfold two_data.
      pose proof (zadd_loop_two nx gl incr ns (Tally t 0 false) S eq_refl) as Z. unfold z_of at 1 in Z. cbn [ta_set ta_written] in Z. rewrite Z.
      unfold z_of. cbn [fst snd outcome_map z_hash z_value z_upd]. rewrite contents_put. unfold content. cbn [with_data v_data v_exp]. rewrite XI.
      split; [done|]. split; [|done]. by destruct (ta_dead _).
    - destruct s as [[book l]|]; cbn [two_step default] in *; [|by rewrite G].
      destruct G as (v & d1 & -> & D & X & C1). rewrite D. unfold two_data. cbn [tw_book tw_shown] in *.
      rewrite (zrem_loop_two ms book l S). cbn [fst snd outcome_map]. rewrite contents_put. subst e.
      split; [done|]. split; [|done]. by destruct (snd (fold_left _ _ _)).
    - destruct s as [[book l]|]; cbn [two_step default] in *; [|by rewrite G].
      destruct G as (v & d1 & -> & D & X & C1). rewrite D. change (two_data (Two book l)) with (DZSet book l). cbn [tw_book tw_shown] in *.
      pose proof (slice_as_scan (size book) a b l) as RS. destruct (shape_rank a b (size book)) as [x y]. rewrite RS.
      destruct (remove_two_nodes (slice_as (size book) a b l) book l S) as (h' & -> & -> & Dn); [by apply slice_as_sub|].
      cbn [zremove_finish fst snd]. rewrite contents_put. subst e. split; [done|]. split; [|done]. by destruct Dn as [->|[? ->]].
    - destruct s as [[book l]|]; cbn [two_step default] in *; [|by rewrite G].
      destruct G as (v & d1 & -> & D & X & C1). rewrite D. change (two_data (Two book l)) with (DZSet book l). cbn [tw_book tw_shown] in *.
      destruct (bigger_range r) as [lo hi] eqn:BR. destruct R as [Ra Rb]. pose proof (score_two r l lo hi Ra Rb S BR) as SS.
      destruct (bt_range lo hi l) as [it|]; [|rewrite SS; cbn [fst snd outcome_map]; split; [exact C1|done]].
      destruct SS as [-> ->]. destruct (remove_two_nodes (score_found r l) book l S) as (h' & -> & -> & Dn); [intros x; apply filter_sub|].
      cbn [zremove_finish fst snd]. rewrite contents_put. subst e. split; [done|]. split; [|done]. by destruct Dn as [->|[? ->]].
    - destruct s as [[book l]|]; cbn [two_step default] in *; [|by rewrite G].
      destruct G as (v & d1 & -> & D & X & C1). rewrite D. change (two_data (Two book l)) with (DZSet book l). cbn [tw_book tw_shown] in *.
      destruct l as [|n0 l0]; [cbn; split; [exact C1|done]|].
      destruct (lex_range (n_score n0) r) as [lo hi] eqn:BR. pose proof (lex_two r n0 l0 lo hi S BR) as SS.
      destruct (bt_range lo hi (n0 :: l0)) as [it|]; [|rewrite SS; cbn [fst snd outcome_map]; split; [exact C1|done]].
      destruct SS as [-> ->]. destruct (remove_two_nodes (lex_found r (n0 :: l0)) book (n0 :: l0) S) as (h' & -> & -> & Dn); [intros x; apply filter_sub|].
      cbn [zremove_finish fst snd]. rewrite contents_put. subst e. split; [done|]. split; [|done]. by destruct Dn as [->|[? ->]].
    - destruct s as [[book l]|]; cbn [two_step default] in *; [|rewrite G; cbn [fst snd outcome_map]; by rewrite C].
      destruct G as (v & d1 & -> & D & X & C1). rewrite D. change (two_data (Two book l)) with (DZSet book l). cbn [tw_book tw_shown] in *.
      destruct (book !! mb); cbn [fst snd outcome_map]; (split; [exact C1|]); [|done].
      rewrite position_index. split; [|done]. do 2 f_equal. unfold directed. by destruct (index_of mb _).
    - destruct s as [[book l]|]; cbn [two_step default] in *; [|rewrite G; cbn [fst snd outcome_map]; by rewrite C].
      destruct G as (v & d1 & -> & D & X & C1). rewrite D. change (two_data (Two book l)) with (DZSet book l). cbn [tw_book tw_shown] in *.
      assert (LE : length (directed rv l) = length l) by (destruct rv; [apply rev_length|done]).
      pose proof (enumerate_slice a b (directed rv l)) as RS. rewrite LE in RS.
      pose proof (limited_ok lim (length l) (slice a b (directed rv l))) as W.
      destruct (shape_limit lim _) as [offset count]. destruct (shape_rank a b _) as [x y]. cbn [fst snd outcome_map].
      split; [exact C1|]. split; [|done]. do 2 f_equal. rewrite map_window. unfold directed in *. rewrite RS. apply W. rewrite <- LE. apply slice_length.
    - destruct s as [[book l]|]; cbn [two_step default] in *; [|rewrite G; cbn [fst snd outcome_map]; by rewrite C].
      destruct G as (v & d1 & -> & D & X & C1). rewrite D. change (two_data (Two book l)) with (DZSet book l). cbn [tw_book tw_shown] in *.
      destruct (bigger_range r) as [lo hi] eqn:BR. destruct R as [Ra Rb]. pose proof (score_two r l lo hi Ra Rb S BR) as SS.
      pose proof (limited_ok lim (length l) (directed rv (score_found r l))) as W. destruct (shape_limit lim _) as [offset count].
      destruct (bt_range lo hi l) as [it|]; [|rewrite SS; cbn [fst snd outcome_map]; split; [exact C1|done]].
      destruct SS as [-> E2]. cbn [fst snd outcome_map]. split; [exact C1|]. split; [|done]. do 2 f_equal. etransitivity; [|apply W].
      + do 2 f_equal. unfold directed. destruct rv; [by rewrite filter_rev_l, E2|done].
      + unfold directed, score_found. destruct rv; rewrite ?rev_length; apply filter_length_l.
    - destruct s as [[book l]|]; cbn [two_step default] in *; [|rewrite G; cbn [fst snd outcome_map]; by rewrite C].
      destruct G as (v & d1 & -> & D & X & C1). rewrite D. change (two_data (Two book l)) with (DZSet book l). cbn [tw_book tw_shown] in *.
      destruct l as [|n0 l0].
      { cbn [fst snd outcome_map]. split; [exact C1|]. split; [|done]. cbn [lex_dies lex_found].
        replace (directed rv (@nil node)) with (@nil node) by (by destruct rv). unfold limited. destruct lim as [[? ?]|]; by rewrite ?window_nil. }
      destruct (lex_range (n_score n0) r) as [lo hi] eqn:BR. pose proof (lex_two r n0 l0 lo hi S BR) as SS.
      pose proof (limited_ok lim (length (n0 :: l0)) (directed rv (lex_found r (n0 :: l0)))) as W. destruct (shape_limit lim _) as [offset count].
      destruct (bt_range lo hi (n0 :: l0)) as [it|]; [|rewrite SS; cbn [fst snd outcome_map]; split; [exact C1|done]].
      destruct SS as [-> ->]. cbn [fst snd outcome_map]. split; [exact C1|]. split; [|done]. do 2 f_equal. apply W.
      unfold directed, lex_found. destruct rv; rewrite ?rev_length; apply filter_length_l. }
  destruct G0 as (G1 & G2 & G3). split; [done|]. split; [done|]. split; [done|].
  assert (O : ordered_at d k).
  { intros x e' X. rewrite C in X. destruct s as [t|]; [|done]. injection X as <- <-. cbn. split; [exact I|]. 
    destruct (zsorted_tree (tw_shown t)) as [_ T]; [by apply zsorted_before|exact T]. }
  assert (W : match two_cmd k o with CWrite w => wkey w = k | CRead r => rkey r = k end) by (by destruct o).
  assert (O' : ordered_at (fst (flat_cmd ho now (two_cmd k o) d)) k).
  { destruct (two_cmd k o) as [w|r]; cbn [flat_cmd] in *.
    - pose proof (wapply_ordered now w d) as P. rewrite W in P. specialize (P O). by destruct (wapply now w d) as [[d' r'] u].
    - destruct (rapply_same ho now r d) as [_ K]. intros x e'. rewrite K. apply O. }
  destruct (fst (two_step o s)) as [t|]; [|done]. cbn [two_ok]. cbn [stored fmap option_fmap option_map] in G1.
  by apply (O' _ _ G1).
Qed.

(** ** C109: every history of ZADD (also with INCR and with NaN scores), ZREM, the three ZREMRANGE commands, ZRANK and
    the three kinds of ZRANGE (any interval, any LIMIT) on a key is a run of that machine: its content and every reply,
    panics of the handler included. *)
Theorem C109_runs (ho : horder) (k : bytes) (h : list (N * cmd)) (ops : list two_op) (b : db) (e : N) (s : option twoset) :
  Forall two_fits ops ->
  two_ok s ->
  map snd (on_key k h) = map (two_cmd k) ops ->
  Forall (fun p => lives (fst p) e) (on_key k h) ->
  (s = None -> e = 0%N) ->
  db_contents b k = stored two_data e s ->
  db_contents (fst (db_run ho h b)) k = stored two_data e (fst (run_ops two_step ops s)) /\
  replies_on k h (snd (db_run ho h b)) = snd (run_ops two_step ops s) /\
  two_ok (fst (run_ops two_step ops s)).
Proof. intros P I O L N C. exact (object_run_inv _ _ _ _ k _ ho two_ok two_fits (two_sim k ho) h ops b e s P I O L N C). Qed.
Print Assumptions C109_runs.
Definition ex_two_ops : list two_op := [
  TAdd [Node (f64_of_Z 1) (bs "a"); Node (f64_of_Z 5) (bs "b")] NxXx_None GtLt_None false;
  TAdd [Node (f64_of_Z 2) (bs "a")] NxXx_None GtLt_None true;
  TAdd [Node (f64_of_Z 4) (bs "a")] NxXx_None GtLt_None true;
  TRange 0 (-1) None false;
  TRangeByLex (Included (bs "a"), Included (bs "a")) None false;
  TRemScore (Included (f64_of_Z 3), Included (f64_of_Z 5));
  TRange 0 (-1) None false;
  TAdd [Node S754_nan (bs "c")] NxXx_None GtLt_None false;
  TRangeByScore (Included (f64_of_Z 7), Included (f64_of_Z 6)) None false].
(** Two increments of a: listed with 1 + 2 and with 4 + 2, recorded with 4.  Removing the scores 3 to 5 drops the first
    node and the record; the second node stays as a ghost.  NaN kills the handler and leaves a record that is not listed. *)
Example C109_runs_case :
  Forall two_fits ex_two_ops /\
  (let s := run_ops two_step ex_two_ops None in
   option_map (fun t => (map_to_list (tw_book t), tw_shown t)) (fst s) = Some ([(bs "c", Node S754_nan (bs "c"))], [Node (f64_of_Z 6) (bs "a")]) /\
   snd s =
    [OOk (PZadd (ZaddResp 0 2 2)); OOk (PZadd (ZaddResp 2 2 1)); OOk (PZadd (ZaddResp 2 2 1));
      OOk (PNodes [Node (f64_of_Z 3) (bs "a"); Node (f64_of_Z 5) (bs "b"); Node (f64_of_Z 6) (bs "a")]);
      OOk (PNodes [Node (f64_of_Z 3) (bs "a")]);
      OOk (PNodes [Node (f64_of_Z 4) (bs "a"); Node (f64_of_Z 5) (bs "b")]);
      OOk (PNodes [Node (f64_of_Z 6) (bs "a")]); OPanic; OPanic]).
Proof. split; [|split; vm_compute; reflexivity]. unfold ex_two_ops. repeat (apply List.Forall_cons; [first [exact Logic.I|split; vm_compute; reflexivity]|]). by apply List.Forall_nil. Qed.

(** ** Every sorted set that any history stores is one of these: C109_runs always applies. *)
Definition own_names (x : data) : Prop :=
  match x with DZSet h _ => forall m n, h !! m = Some n -> n_key n = m | _ => True end.
Definition own_at (d : dict) (k : bytes) : Prop := forall x e, contents d k = Some (x, e) -> own_names x.
Lemma own_put k v d : own_names (v_data v) -> own_at (dict_put k v d) k.
Proof. intros H x e. rewrite contents_put. intros E. injection E as <- <-. done. Qed.
Lemma own_inner d k v : own_at d k -> inner d !! k = Some v -> own_names (v_data v).
Proof. intros G E. eapply G. unfold contents. by rewrite E. Qed.
Definition own (h : gmap bytes node) : Prop := forall m n, h !! m = Some n -> n_key n = m.
Lemma own_delete m h : own h -> own (delete m h).
Proof. intros H i n E. apply lookup_delete_Some in E as [_ E]. by apply H. Qed.
Lemma zadd_loop_own nx gl incr ns z : own (z_hash z) -> own (z_hash (fst (zadd_loop nx gl incr z ns))).
Proof.
  revert z; induction ns as [|n ns IH]; intros z H; [done|]. cbn [zadd_loop].
  assert (F : own (z_hash (fst (zadd_node nx gl incr z n)))).
  { assert (I : own (<[n_key n := n]> (z_hash z))).
    { intros m x E. apply lookup_insert_Some in E as [[<- <-]|[_ E]]; [done|by apply H]. }
    unfold zadd_node. destruct (zadd_can _ _ _ _); [|done]. destruct (z_hash z !! n_key n).
    - destruct (bt_remove _ _); [|done]. by destruct (bt_insert _ _).
    - by destruct (bt_insert _ _). }
  destruct (zadd_node nx gl incr z n) as [z' p]. destruct p; [done|]. by apply IH.
Qed.
Lemma zrem_loop_own ms h l : own h -> own (fst (fst (zrem_loop h l ms))).
Proof.
  revert h l; induction ms as [|m ms IH]; intros h l F; [done|]. cbn [zrem_loop].
  destruct (h !! m) as [on|]; [|by apply IH]. pose proof (own_delete m h F).
  destruct (bt_remove on l) as [l'|]; [by apply IH|done].
Qed.
Lemma zremove_nodes_own ns h l : own h -> own (fst (fst (fst (zremove_nodes h l ns)))).
Proof.
  revert h l; induction ns as [|n ns IH]; intros h l F; [done|]. cbn [zremove_nodes].
  destruct (bt_remove n l) as [l'|]; [|done]. specialize (IH (delete (n_key n) h) l' (own_delete _ _ F)).
  by destruct (zremove_nodes _ l' ns) as [[[h' l''] res] p].
Qed.
Ltac solve_own :=
  rewrite ?dict_insert_put; cbn [fst snd outcome_map v_data with_data touch fresh_value];
  lazymatch goal with
  | G : own_at ?d ?k |- own_at ?d ?k => exact G
  | |- own_at (dict_put ?k _ _) ?k => apply own_put; cbn [v_data with_data touch fresh_value own_names] in *; try (exact Logic.I); try assumption; try congruence
  | |- context [match ?x with _ => _ end] => split_match; solve_own
  end.
Lemma wapply_own now w d : (match w with WRestore _ => False | _ => True end) -> own_at d (wkey w) ->
  own_at (fst (fst (wapply now w d))) (wkey w).
Proof.
  intros NR G. pose proof (own_inner d (wkey w)) as GI.
  destruct w; cbn [wapply wkey] in *; try done; cmd_unfold.
  1: { unfold dict_remove. destruct (inner d !! k) as [v|]; cbn [fst snd]; intros x e; unfold contents; cbn; by rewrite lookup_delete. }
  all: try (case_get; [specialize (GI v G E)|]; solve_own; fail).
  - case_get; [specialize (GI v G E); pose proof GI as GI0; change (v_data (touch now v)) with (v_data v); destruct (v_data v) as [| | | |h l] eqn:D; rewrite <- ?D in GI0; try exact (own_put k (touch now v) d GI0)|].
    + pose proof (zadd_loop_own nx gl incr ns (ZState h l 0) GI) as Z.
      destruct (zadd_loop _ _ _ _ _) as [z p]. by apply own_put.
    + cbn [v_data fresh_value].
      assert (F0 : own (z_hash (ZState ∅ [] 0))) by (intros i n H; cbn [z_hash] in H; by rewrite lookup_empty in H).
      pose proof (zadd_loop_own nx gl incr ns (ZState ∅ [] 0) F0) as Z.
      destruct (zadd_loop _ _ _ _ _) as [z p]. by apply own_put.
  - case_get; [|solve_own]. specialize (GI v G E). pose proof GI as GI0. change (v_data (touch now v)) with (v_data v).
    destruct (v_data v) as [| | | |h l] eqn:D; rewrite <- ?D in GI0; try exact (own_put k (touch now v) d GI0).
    pose proof (zrem_loop_own ms h l GI) as Z. destruct (zrem_loop h l ms) as [[h' l'] p]. by apply own_put.
  - case_get; [|solve_own]. specialize (GI v G E). pose proof GI as GI0. change (v_data (touch now v)) with (v_data v).
    destruct (v_data v) as [| | | |h l] eqn:D; rewrite <- ?D in GI0; try exact (own_put k (touch now v) d GI0).
    destruct (shape_rank _ _ _) as [x y].
    match goal with |- context [zremove_nodes h l ?n] => pose proof (zremove_nodes_own n h l GI) as Z; destruct (zremove_nodes h l n) as [[[h' l'] res] p] end.
    by apply own_put.
  - case_get; [|solve_own]. specialize (GI v G E). pose proof GI as GI0. change (v_data (touch now v)) with (v_data v).
    destruct (v_data v) as [| | | |h l] eqn:D; rewrite <- ?D in GI0; try exact (own_put k (touch now v) d GI0).
    destruct (bigger_range r) as [lo hi]. destruct (bt_range lo hi l) as [it|]; [|exact (own_put k (touch now v) d GI0)].
    match goal with |- context [zremove_nodes h l ?n] => pose proof (zremove_nodes_own n h l GI) as Z; destruct (zremove_nodes h l n) as [[[h' l'] res] p] end.
    by apply own_put.
  - case_get; [|solve_own]. specialize (GI v G E). pose proof GI as GI0. change (v_data (touch now v)) with (v_data v).
    destruct (v_data v) as [| | | |h l] eqn:D; rewrite <- ?D in GI0; try exact (own_put k (touch now v) d GI0).
    destruct l as [|n0 l0]; [exact (own_put k (touch now v) d GI0)|].
    destruct (lex_range (n_score n0) r) as [lo hi]. destruct (bt_range lo hi (n0 :: l0)) as [it|]; [|exact (own_put k (touch now v) d GI0)].
    match goal with |- context [zremove_nodes h ?l ?n] => pose proof (zremove_nodes_own n h l GI) as Z; destruct (zremove_nodes h l n) as [[[h' l'] res] p] end.
    by apply own_put.
Qed.
Theorem C109_reachable (ho : horder) (hist : list (N * cmd)) (k : bytes) (h : gmap bytes node) (l : list node) (e : N) :
  db_contents (fst (db_run ho hist db_empty)) k = Some (DZSet h l, e) ->
  db_contents (fst (db_run ho hist db_empty)) k = stored two_data e (Some (Two h l)) /\ two_ok (Some (Two h l)).
Proof. intros C. split; [exact C|]. exact (proj1 (C31_any_history ho hist k h l e C)). Qed.
Print Assumptions C109_reachable.
Example C109_reachable_case :
  let hist := [(1%N, CWrite (WZAdd (bs "z") [Node (f64_of_Z 1) (bs "a")] NxXx_None GtLt_None false));
    (2%N, CWrite (WZAdd (bs "z") [Node S754_nan (bs "b")] NxXx_None GtLt_None false))] in
  exists h, db_contents (fst (db_run horder_default hist db_empty)) (bs "z") = Some (DZSet h [Node (f64_of_Z 1) (bs "a")], 0%N).
Proof. vm_compute. by eexists. Qed.
(** Without RESTORE, the node recorded for a member carries the name of the member. *)
Theorem C109_own_names (ho : horder) (hist : list (N * cmd)) (k : bytes) (h : gmap bytes node) (l : list node) (e : N) :
  Forall (fun p => match snd p with CWrite (WRestore _) => False | _ => True end) hist ->
  db_contents (fst (db_run ho hist db_empty)) k = Some (DZSet h l, e) ->
  forall m n, h !! m = Some n -> n_key n = m.
Proof.
  intros H C.
  refine (db_run_keeps (fun w => match w with WRestore _ => False | _ => True end) own_names ho hist db_empty _ _ _ k (DZSet h l) e C).
  - intros now w d P B. by apply wapply_own.
  - eapply List.Forall_impl; [|exact H]. intros [t c]. cbn. by destruct c.
  - done.
Qed.
Print Assumptions C109_own_names.
Example C109_own_names_case :
  let hist := [(1%N, CWrite (WZAdd (bs "z") [Node (f64_of_Z 1) (bs "a")] NxXx_None GtLt_None false))] in
  Forall (fun p => match snd p with CWrite (WRestore _) => False | _ => True end) hist /\
  (exists h, db_contents (fst (db_run horder_default hist db_empty)) (bs "z") = Some (DZSet h [Node (f64_of_Z 1) (bs "a")], 0%N)).
Proof. split; [by repeat constructor|]. vm_compute. by eexists. Qed.
(** False with RESTORE: a payload whose book records the node of somebody else; ZREM of b then takes a off the list. *)
Definition ex_forged : bytes := put_data horder_default (DZSet {[bs "b" := Node (f64_of_Z 1) (bs "a")]} [Node (f64_of_Z 1) (bs "a")]).
Theorem C109_own_names_refuted :
  exists ho hist k h l e m n, db_contents (fst (db_run ho hist db_empty)) k = Some (DZSet h l, e) /\ h !! m = Some n /\ n_key n <> m.
Proof.
  exists horder_default, [(1%N, CWrite (WRestore (RestoreReq (bs "z") ex_forged 0 true 0 0)))], (bs "z"),
    {[bs "b" := Node (f64_of_Z 1) (bs "a")]}, [Node (f64_of_Z 1) (bs "a")], 0%N, (bs "b"), (Node (f64_of_Z 1) (bs "a")).
  split; [apply (bool_decide_eq_true_1 _); by vm_compute|]. split; [by apply lookup_singleton|done].
Qed.
Print Assumptions C109_own_names_refuted.
Example C109_own_names_refuted_case :
  snd (run_ops two_step [TRem [bs "a"]; TRem [bs "b"]; TRange 0 (-1) None false] (Some (Two {[bs "b" := Node (f64_of_Z 1) (bs "a")]} [Node (f64_of_Z 1) (bs "a")]))) =
    [OOk (PLens (Lens 1 1)); OOk (PLens (Lens 1 0)); OOk (PNodes [])].
Proof. by vm_compute. Qed.

(** ** C109: the requests *)
Lemma name_read b t : name_text b t -> lex_bound t = AOk b.
Proof. intros [H|H]; by eapply lex_read. Qed.
Lemma score_fits b t : score_text b t -> valid_bound b.
Proof. intros H. apply score_read, C34_request_bounds in H. by destruct b. Qed.
Lemma two_plan en q k o rep now : two_request en q k o rep -> plan_of now q = AOk (PCmds [two_cmd k o]) /\ two_fits o.
Proof.
  intros Q. destruct Q; cbn [plan_of two_fits two_cmd fst snd]; (split; [|try exact Logic.I; split; by eapply score_fits]); try done;
    try match goal with H : ro_order o = _ |- _ => rewrite H end.
  - by rewrite (two_read int_of lo hi a b) by (by apply int_read).
  - by rewrite (two_read int_of lo hi a b) by (by apply int_read).
  - by rewrite (two_read float_bound t u lo hi) by (by apply score_read).
  - by rewrite (two_read float_bound u t hi lo) by (by apply score_read).
  - destruct (ro_rev o); [by rewrite (two_read float_bound u t hi lo) by (by apply score_read)|by rewrite (two_read float_bound t u lo hi) by (by apply score_read)].
  - by rewrite (two_read lex_bound t u lo hi) by (by apply name_read).
  - by rewrite (two_read lex_bound u t hi lo) by (by apply name_read).
  - destruct (ro_rev o); [by rewrite (two_read lex_bound u t hi lo) by (by apply name_read)|by rewrite (two_read lex_bound t u lo hi) by (by apply name_read)].
  - by rewrite (two_read float_bound t u lo hi) by (by apply score_read).
  - by rewrite (two_read lex_bound t u lo hi) by (by apply name_read).
Qed.
Lemma add_one_grows nx gl incr ns p :
  size (tw_book (ta_set p)) <= size (tw_book (ta_set (fold_left (add_one nx gl incr) ns p))).
Proof.
  revert p; induction ns as [|n ns IH]; intros p; cbn [fold_left]; [done|]. etransitivity; [|apply IH].
  unfold add_one. destruct (ta_dead p); [done|]. destruct (ta_set p) as [book l] eqn:E. destruct (code_zadd_table _ _ _ _); [|by rewrite E].
  assert (G : size book <= size (<[n_key n := n]> book)) by (rewrite map_size_insert; destruct (book !! n_key n); cbn; lia).
  repeat case_match; exact G.
Qed.
Lemma rem_one_shrinks ms p : size (tw_book (fst (fold_left rem_one ms p))) <= size (tw_book (fst p)).
Proof.
  revert p; induction ms as [|m ms IH]; intros p; cbn [fold_left]; [done|]. etransitivity; [apply IH|].
  unfold rem_one. destruct p as [[book l] dead]. destruct dead; [done|]. destruct (book !! m) eqn:E; [|done].
  assert (G : size (delete m book) <= size book) by (rewrite map_size_delete, E; lia).
  destruct (nan_met _ _); exact G.
Qed.
Lemma diff_shown a b : b <= a -> diff_frame a b = counted (a - b).
Proof. intros H. rewrite <- (diff_counted b (a - b)). f_equal. lia. Qed.
Lemma two_answer en q k o rep s now r : two_request en q k o rep -> snd (two_step o s) = OOk r -> answer en now q [r] = AOk (rep r).
Proof.
  intros Q H. destruct Q.
  - cbn [two_step snd] in H. case_match; [done|]. injection H as <-. cbn [answer grown_reply za_new za_old].
    destruct (zo_ch o); [by rewrite len_counted|]. rewrite diff_shown; [done|]. apply (add_one_grows _ _ _ _ (Tally _ 0 false)).
  - destruct s as [t|]; cbn [two_step snd] in H; [|injection H as <-; cbn [answer shrunk_reply old_len new_len]; by rewrite diff_shown]. case_match; [done|]. injection H as <-.
    cbn [answer shrunk_reply old_len new_len]. rewrite diff_shown; [done|]. apply (rem_one_shrinks _ (t, false)).
  - destruct s as [t|]; cbn [two_step snd] in H; injection H as <-; [|done]. cbn [answer place_reply].
    destruct (tw_book t !! m); [|done]. destruct (index_of m _); [|done]. cbn. by rewrite len_counted.
  - destruct s as [t|]; cbn [two_step snd] in H; injection H as <-; [|done]. cbn [answer place_reply].
    destruct (tw_book t !! m); [|done]. destruct (index_of m _); [|done]. cbn. by rewrite len_counted.
  - destruct s as [t|]; cbn [two_step snd] in H; by injection H as <-.
  - destruct s as [t|]; cbn [two_step snd] in H; by injection H as <-.
  - destruct s as [t0|]; cbn [two_step snd] in H; [case_match; [done|]|]; by injection H as <-.
  - destruct s as [t0|]; cbn [two_step snd] in H; [case_match; [done|]|]; by injection H as <-.
  - destruct s as [t0|]; cbn [two_step snd] in H; [case_match; [done|]|]; by injection H as <-.
  - destruct s as [t0|]; cbn [two_step snd] in H; [case_match; [done|]|]; by injection H as <-.
  - destruct s as [t0|]; cbn [two_step snd] in H; [case_match; [done|]|]; by injection H as <-.
  - destruct s as [t0|]; cbn [two_step snd] in H; [case_match; [done|]|]; by injection H as <-.
  - destruct s as [t0|]; cbn [two_step snd] in H; [|by injection H as <-]. unfold remove_nodes in H. repeat case_match; try done; injection H as <-; cbn [answer removed_reply]; by rewrite len_counted.
  - destruct s as [t0|]; cbn [two_step snd] in H; [|by injection H as <-]. case_match; [done|]. cbn [snd] in H.
    unfold remove_nodes in H. repeat case_match; try done; injection H as <-; cbn [answer removed_reply]; by rewrite len_counted.
  - destruct s as [t0|]; cbn [two_step snd] in H; [|by injection H as <-]. case_match; [done|]. cbn [snd] in H.
    unfold remove_nodes in H. repeat case_match; try done; injection H as <-; cbn [answer removed_reply]; by rewrite len_counted.
Qed.
Lemma two_no_error o s x : snd (two_step o s) <> OErr x.
Proof. destruct o, s as [t0|]; cbn [two_step snd]; try done; unfold remove_nodes; repeat case_match; done. Qed.
(** Every request about a sorted set does what the machine does, or kills its handler when the machine says so. *)
Theorem C109_requests en clock oth q e k o rep s d : two_request en q k o rep ->
  before clock oth e k = stored two_data d s -> (s = None -> d = 0%N) -> two_ok s ->
  two_ok (fst (two_step o s)) /\
  match snd (two_step o s) with
  | OOk r => does en clock oth q e k (stored two_data d (fst (two_step o s))) (eq (rep r))
  | OErr _ => False
  | OPanic => dies en clock oth q e k (stored two_data d (fst (two_step o s)))
  end.
Proof.
  intros Q B N I. destruct (two_plan en q k o rep (clock 0%nat) Q) as [P F].
  assert (K : ckey (two_cmd k o) = k) by (by destruct o). assert (NP : no_peek (two_cmd k o) = true) by (by destruct o).
  assert (O : two_ok (fst (two_step o s))).
  { destruct s as [t|].
    - pose proof (view_is _ _ _ _ B) as [_ L]. cbn [snd] in L.
      refine (proj2 (proj2 (proj2 (two_sim k (e_ho en) (clock 1%nat) o (Dict 0 {[k := Value (two_data t) d 0]}) d (Some t) F I L N _)))).
      unfold contents. cbn [inner]. by rewrite lookup_singleton.
    - rewrite (N eq_refl) in *. by refine (proj2 (proj2 (proj2 (two_sim k (e_ho en) (clock 1%nat) o dict_empty 0%N None F I (or_introl eq_refl) (fun _ => eq_refl) _)))). }
  split; [exact O|].
  assert (Sim : forall dd, lives (clock 1%nat) d -> contents dd (ckey (two_cmd k o)) = stored two_data d s ->
     contents (fst (flat_cmd (e_ho en) (clock 1%nat) (two_cmd k o) dd)) (ckey (two_cmd k o)) = stored two_data d (fst (two_step o s)) /\
     snd (flat_cmd (e_ho en) (clock 1%nat) (two_cmd k o) dd) = snd (two_step o s)).
  { rewrite K. intros dd L C. by destruct (two_sim k (e_ho en) (clock 1%nat) o dd d s F I L N C) as (H1 & H2 & _). }
  destruct (snd (two_step o s)) as [r|x|] eqn:R.
  - rewrite <- K at 1. rewrite <- K in B. eapply does_sim; [done|done|done|done|exact Sim|].
    exists (rep r). split; [|done]. by eapply two_answer.
  - by apply two_no_error in R.
  - rewrite <- K in B. destruct (serve_any en clock oth q e _ P) as [S1 S2].
    destruct (view_sim two_data (e_ho en) (clock 1%nat) _ (ef_db (oth 0%nat e)) s _ d OPanic NP B N Sim) as [V RR]. rewrite RR in S2.
    unfold dies. destruct (serve_request en clock oth q e) as [e' out]. cbn [fst snd] in S1, S2. subst out.
    exists e'. split; [done|]. rewrite S1. rewrite K in V. split; [exact V|].
    intros j J. apply db_cmd_other. by rewrite K.
Qed.
Print Assumptions C109_requests.
(** INCR twice; then a query by name over two scores, and an interval upside down. *)
From Verif Require Import PropMeaning.
Definition ex_incr : effects := fst (fst (ex_run [
  [bs "ZADD"; bs "z"; bs "1"; bs "a"; bs "5"; bs "b"]; [bs "ZADD"; bs "z"; bs "INCR"; bs "2"; bs "a"]; [bs "ZADD"; bs "z"; bs "INCR"; bs "4"; bs "a"]])).
Definition ex_two : twoset := Two {[bs "a" := Node (f64_of_Z 4) (bs "a"); bs "b" := Node (f64_of_Z 5) (bs "b")]}
  [Node (f64_of_Z 3) (bs "a"); Node (f64_of_Z 5) (bs "b"); Node (f64_of_Z 6) (bs "a")].
Example C109_requests_case :
  before (fun _ => 5%N) alone ex_incr (bs "z") = stored two_data 0 (Some ex_two) /\ two_ok (Some ex_two) /\
  two_request ex_env (QZrangebylex (bs "z") (bs "(a") (bs "+") None) (bs "z") (TRangeByLex (Excluded (bs "a"), Unbounded) None false) (nodes_reply ex_env false) /\
  snd (serve_request ex_env (fun _ => 5%N) alone (QZrangebylex (bs "z") (bs "(a") (bs "+") None) ex_incr) = inl (FArray (map FSimple [bs "b"; bs "a"])) /\
  two_request ex_env (QZrangebyscore (bs "z") (bs "4") (bs "(2") false None) (bs "z")
    (TRangeByScore (Included (f64_of_Z 4), Excluded (f64_of_Z 2)) None false) (nodes_reply ex_env false) /\
  snd (serve_request ex_env (fun _ => 5%N) alone (QZrangebyscore (bs "z") (bs "4") (bs "(2") false None) ex_incr) = inr HPanic.
Proof.
  split; [computes|]. split; [cbn [two_ok ex_two tw_shown]; repeat constructor; vm_compute; done|].
  split; [constructor; [by left|by right]|]. split; [by vm_compute|]. split; [|by vm_compute].
  constructor; (split; [by repeat constructor|]).
  - split; [by vm_compute|]. intros t'. by cbn.
  - exists (bs "2"). split; [done|by vm_compute].
Qed.

(** ** Sorted sets whose indexes agree are the score maps of C33. *)
Theorem C109_agreeing (m : gmap bytes f64) : no_nans m ->
  two_data (Two (nodes_of m) (listing m)) = zset_data m /\ two_ok (Some (Two (nodes_of m) (listing m))).
Proof. intros H. split; [done|]. cbn. exact (proj1 (proj1 (C33_listing m H))). Qed.
Print Assumptions C109_agreeing.
Example C109_agreeing_case : no_nans ex_yy /\ listing ex_yy = map (Node (f64_of_Z 1)) [bs "m"; bs "n"; bs "o"].
Proof. split; [exact (proj1 (proj2 C96_lex_queries_case))|by vm_compute]. Qed.
(** A negative LIMIT offset selects nothing, as long as lengths and offsets stay below 2^62. *)
Theorem C109_negative_offset (n : nat) (o : Z) (c : Z) (l : list node) :
  length l <= n -> (Z.of_nat n < 2 ^ 62)%Z -> (- 2 ^ 62 < o < 0)%Z -> limited n (Some (o, c)) l = [].
Proof.
  intros H1 H2 H3. unfold limited. destruct (Z.leb_spec 0 o); [lia|]. cbn [window].
  assert (A : as_i64 (Z.of_nat n - o) = (Z.of_nat n - o)%Z).
  { unfold as_i64. rewrite Z.mod_small by lia. lia. }
  rewrite A, skipn_all2 by lia. destruct (c <? 0)%Z; [done|]. apply firstn_nil.
Qed.
Print Assumptions C109_negative_offset.
Example C109_negative_offset_case : limited 3 (Some (-1, 2)%Z) (tw_shown ex_two) = [] /\ limited 3 (Some (1, 2)%Z) (tw_shown ex_two) <> [].
Proof. split; [by vm_compute|done]. Qed.
