(** Proofs about sorted sets. *)
From stdpp Require Import sorting.
From Verif Require Export SpecZset CollFacts OrderFacts.

Local Arguments dict_put : simpl never.

(** ** The specification's order is the code's *)
Lemma bytes_beforeb_cmp x y : bytes_beforeb x y = true <-> bytes_cmp x y = Lt.
Proof.
  revert y; induction x as [|a x IH]; intros [|b y]; cbn; try done. unfold byte_cmp.
  destruct (N.compare_spec (Byte.to_N a) (Byte.to_N b)) as [E|E|E].
  - replace (Byte.to_N a <? Byte.to_N b)%N with false by lia.
    replace (Byte.to_N a =? Byte.to_N b)%N with true by lia. apply IH.
  - replace (Byte.to_N a <? Byte.to_N b)%N with true by lia. done.
  - replace (Byte.to_N a <? Byte.to_N b)%N with false by lia.
    replace (Byte.to_N a =? Byte.to_N b)%N with false by lia. done.
Qed.
Lemma bytes_before_cmp x y : bytes_before x y <-> bytes_cmp x y = Lt.
Proof.
  split.
  - intros [(b & r & ->)|(p & a & b & r & r' & -> & -> & H)].
    + induction x as [|c x IH]; [done|]. cbn. unfold byte_cmp. by rewrite N.compare_refl.
    + induction p as [|c p IH]; cbn; unfold byte_cmp.
      * by rewrite (proj2 (N.compare_lt_iff _ _) H).
      * by rewrite N.compare_refl.
  - revert y; induction x as [|a x IH]; intros [|b y]; cbn; try done.
    + intros _. left. by exists b, y.
    + unfold byte_cmp. destruct (N.compare_spec (Byte.to_N a) (Byte.to_N b)) as [E|E|E]; [| |done].
      * apply byte_to_N_inj in E as ->. intros H. destruct (IH y H) as [(c & r & ->)|(p & c & c' & r & r' & -> & -> & Hc)].
        -- left. by exists c, r.
        -- right. by exists (b :: p), c, c', r, r'.
      * intros _. right. by exists [], a, b, x, y.
Qed.
Lemma node_beforeb_lt a b : node_beforeb a b = true <-> node_lt a b.
Proof.
  unfold node_beforeb, node_lt, node_cmp, f64_lt, f64_eq.
  destruct (f64_cmp (n_score a) (n_score b)) as [[]|]; cbn; try done.
  rewrite bytes_beforeb_cmp. split; [by intros ->|by intros [= ->]].
Qed.
Lemma node_before_lt a b : node_before a b <-> node_lt a b.
Proof.
  unfold node_before, node_lt, node_cmp, f64_lt, f64_eq. rewrite bytes_before_cmp.
  destruct (f64_cmp (n_score a) (n_score b)) as [[]|]; cbn; try (split; (tauto || intuition congruence)).
Qed.

(** ** Strictly sorted lists of nodes *)
Notation zsorted := (StronglySorted node_lt).
Notation nanless l := (Forall (fun n => node_nan n = false) l).

Lemma zsorted_before l : zsorted l <-> StronglySorted node_before l.
Proof.
  split; (induction 1 as [|a l S IH H]; [apply SSorted_nil|apply SSorted_cons; [exact IH|]]);
    (eapply list.Forall_impl; [exact H|]; intros x; apply node_before_lt).
Qed.

Lemma zsorted_nodup l : zsorted l -> NoDup l.
Proof.
  induction 1 as [|a l _ IH H]; constructor; [|done].
  intros E. rewrite Forall_forall in H. apply elem_of_list_In in E. exact (node_lt_irrefl _ (H _ E)).
Qed.
Lemma zsorted_unique l1 l2 : zsorted l1 -> zsorted l2 -> (forall n, n ∈ l1 <-> n ∈ l2) -> l1 = l2.
Proof.
  intros S1 S2 E.
  assert (AntiSymm (=) node_lt). { intros x y H1 H2. destruct (node_lt_asym _ _ H1 H2). }
  apply (StronglySorted_unique node_lt); [done|done|].
  apply NoDup_Permutation; [by apply zsorted_nodup|by apply zsorted_nodup|done].
Qed.

Lemma ins_spec n l :
  zsorted l -> nanless l -> node_nan n = false -> (forall x, x ∈ l -> n_key x <> n_key n) ->
  zsorted (ins n l) /\ nanless (ins n l) /\ forall x, x ∈ ins n l <-> x = n \/ x ∈ l.
Proof.
  intros S Nl Nn K. induction S as [|a l S IH H].
  - cbn. split; [by repeat constructor|]. split; [by repeat constructor|]. intros x. set_solver.
  - inversion Nl as [|? ? Na Nl']; subst. cbn [ins].
    destruct (node_cmp_total n a Nn Na) as [c Hc]. rewrite Hc. destruct c.
    + apply node_cmp_eq_key in Hc as [E _]. exfalso. apply (K a); [left|done].
    + split; [|split; [by constructor|set_solver]]. constructor; [by constructor|]. constructor; [done|].
      eapply list.Forall_impl; [exact H|]. intros x Hx. by eapply node_lt_trans.
    + destruct IH as (I1 & I2 & I3); [done|intros x Hx; apply K; by right|].
      split; [|split; [by constructor|]].
      * constructor; [done|]. rewrite Forall_forall. intros x Hx. apply elem_of_list_In, I3 in Hx as [->|Hx].
        -- by apply node_cmp_gt.
        -- rewrite Forall_forall in H. apply H. by apply elem_of_list_In.
      * intros x. rewrite !elem_of_cons, I3. tauto.
Qed.
Lemma del_spec_z n l :
  zsorted l -> nanless l -> n ∈ l ->
  zsorted (del n l) /\ nanless (del n l) /\ forall x, x ∈ del n l <-> x ∈ l /\ x <> n.
Proof.
  intros S Nl Hn. induction S as [|a l S IH H]; [by apply elem_of_nil in Hn|].
  inversion Nl as [|? ? Na Nl']; subst. cbn [del]. rewrite Forall_forall in H.
  apply elem_of_cons in Hn as [->|Hn].
  - rewrite node_cmp_refl by done. split; [done|]. split; [done|]. intros x. rewrite elem_of_cons.
    split; [|tauto]. intros Hx. split; [by right|]. intros ->. apply elem_of_list_In in Hx.
    exact (node_lt_irrefl _ (H _ Hx)).
  - assert (L : node_lt a n) by (apply H; by apply elem_of_list_In).
    rewrite (proj2 (node_cmp_gt n a) L). destruct IH as (I1 & I2 & I3); [done|done|].
    split; [|split; [by constructor|]].
    + constructor; [done|]. rewrite Forall_forall. intros x Hx. apply elem_of_list_In, I3 in Hx as [Hx _].
      apply H. by apply elem_of_list_In.
    + intros x. rewrite !elem_of_cons, I3. split; [|tauto].
      intros [->|[? ?]]; [|tauto]. split; [by left|]. intros ->. exact (node_lt_irrefl _ L).
Qed.
Lemma clash_none n l : nanless l -> node_nan n = false -> bt_clash n l = false.
Proof.
  intros H Hn. destruct l as [|a l]; [done|]. unfold bt_clash. rewrite Hn. cbn [orb].
  induction H as [|x l' Hx _ IH]; [done|]. cbn [existsb]. by rewrite Hx, IH.
Qed.

(** ** Listings *)
Lemma place_ins n l :
  nanless l -> node_nan n = false -> (forall x, x ∈ l -> n_key x <> n_key n) -> place n l = ins n l.
Proof.
  intros Nl Nn K. induction Nl as [|a l Na Nl IH]; [done|]. cbn [place ins].
  destruct (node_cmp_total n a Nn Na) as [c Hc]. pose proof (node_beforeb_lt n a) as B. unfold node_lt in B. rewrite Hc in *.
  destruct c.
  - apply node_cmp_eq_key in Hc as [E _]. exfalso. apply (K a); [left|done].
  - by rewrite (proj2 B).
  - replace (node_beforeb n a) with false by (destruct (node_beforeb n a); [discriminate (proj1 B eq_refl)|done]).
    rewrite IH; [done|]. intros x Hx. apply K. by right.
Qed.
Lemma listing_spec m : no_nans m ->
  zsorted (listing m) /\ nanless (listing m) /\ forall n, n ∈ listing m <-> m !! n_key n = Some (n_score n).
Proof.
  intros Hm. unfold listing.
  assert (G : forall kvs : list (bytes * f64), NoDup kvs.*1 -> Forall (fun p => not_nan p.2) kvs ->
     let l := foldr place [] (map (fun p => Node p.2 p.1) kvs) in
     zsorted l /\ nanless l /\ forall n, n ∈ l <-> (n_key n, n_score n) ∈ kvs).
  { induction kvs as [|[k s] kvs IH]; intros ND NN; cbn.
    - split; [constructor|]. split; [constructor|]. set_solver.
    - inversion ND as [|? ? Hk ND']; subst. inversion NN as [|? ? Hs NN']; subst.
      destruct (IH ND' NN') as (I1 & I2 & I3). set (l := foldr place [] _) in *.
      assert (K : forall x, x ∈ l -> n_key x <> n_key (Node s k)).
      { intros x Hx E. apply I3 in Hx. apply Hk. cbn in E. rewrite <- E. apply elem_of_list_fmap.
        by exists (n_key x, n_score x). }
      rewrite place_ins by done. destruct (ins_spec (Node s k) l I1 I2 Hs K) as (J1 & J2 & J3).
      split; [done|]. split; [done|]. intros n. rewrite J3, I3, elem_of_cons.
      split; intros [H|H]; try tauto; left; [by subst n|]. destruct n as [s' k']. cbn in H. by injection H as -> ->. }
  destruct (G (map_to_list m)) as (G1 & G2 & G3).
  - apply NoDup_fst_map_to_list.
  - apply Forall_forall. intros [k s] H. apply elem_of_list_In, elem_of_map_to_list in H. exact (Hm _ _ H).
  - split; [done|]. split; [done|]. intros n. rewrite G3, elem_of_map_to_list. done.
Qed.
Lemma listing_sorted m : no_nans m -> sorted_listing m (listing m).
Proof. intros H. destruct (listing_spec m H) as (A & _ & B). split; [by apply zsorted_before|done]. Qed.
Lemma listing_unique m l : no_nans m -> zsorted l -> (forall n, n ∈ l <-> m !! n_key n = Some (n_score n)) -> l = listing m.
Proof.
  intros H S E. destruct (listing_spec m H) as (A & _ & B). apply zsorted_unique; [done|done|].
  intros n. by rewrite E, B.
Qed.
Lemma sorted_listing_unique m l : no_nans m -> sorted_listing m l -> l = listing m.
Proof. intros H [A B]. apply listing_unique; [done|by apply zsorted_before|done]. Qed.

Lemma listing_keys m : no_nans m -> NoDup (map n_key (listing m)).
Proof.
  intros H. destruct (listing_spec m H) as (A & _ & B). apply zsorted_nodup in A.
  assert (G : forall l : list node, NoDup l -> (forall n, n ∈ l -> m !! n_key n = Some (n_score n)) -> NoDup (map n_key l)).
  { induction l as [|n l IH]; intros ND E; cbn; [constructor|]. inversion ND as [|? ? Hn ND']; subst.
    constructor; [|apply IH; [done|intros x Hx; apply E; by right]].
    intros F. apply elem_of_list_fmap in F as (x & Ek & Hx). apply Hn.
    replace n with x; [done|]. pose proof (E x (elem_of_list_further _ _ _ Hx)) as E1.
    pose proof (E n (elem_of_list_here _ _)) as E2. rewrite <- Ek, E2 in E1. destruct n, x; cbn in *; congruence. }
  apply G; [done|]. intros n. apply B.
Qed.
Lemma listing_length m : no_nans m -> length (listing m) = size m.
Proof.
  intros H. rewrite <- size_dom, <- (map_length n_key).
  destruct (listing_spec m H) as (A & _ & B).
  assert (E : dom m = list_to_set (map n_key (listing m))).
  { apply set_eq. intros k. rewrite elem_of_dom, elem_of_list_to_set, elem_of_list_fmap. split.
    - intros [s Hs]. exists (Node s k). split; [done|]. by apply B.
    - intros (n & -> & Hn). apply B in Hn. eauto. }
  rewrite E, size_list_to_set; [done|]. by apply listing_keys.
Qed.
Lemma nodes_of_lookup m k : nodes_of m !! k = (fun s => Node s k) <$> m !! k.
Proof. unfold nodes_of. rewrite map_lookup_imap. by destruct (m !! k). Qed.
Lemma nodes_of_size m : size (nodes_of m) = size m.
Proof.
  rewrite <- !size_dom. f_equal. apply set_eq. intros k. rewrite !elem_of_dom, nodes_of_lookup.
  destruct (m !! k); cbn; split; intros [? ?]; eauto; done.
Qed.
Lemma nodes_of_insert m k s : <[k := Node s k]> (nodes_of m) = nodes_of (<[k := s]> m).
Proof.
  apply map_eq. intros k'. rewrite nodes_of_lookup. destruct (decide (k' = k)) as [->|H].
  - by rewrite !lookup_insert.
  - by rewrite !lookup_insert_ne, nodes_of_lookup by congruence.
Qed.
Lemma nodes_of_delete m k : delete k (nodes_of m) = nodes_of (delete k m).
Proof.
  apply map_eq. intros k'. rewrite nodes_of_lookup. destruct (decide (k' = k)) as [->|H].
  - by rewrite !lookup_delete.
  - by rewrite !lookup_delete_ne, nodes_of_lookup by congruence.
Qed.
Lemma no_nans_insert m k s : no_nans m -> not_nan s -> no_nans (<[k := s]> m).
Proof. intros H Hs k' s' E. apply lookup_insert_Some in E as [[_ <-]|[_ E]]; [done|exact (H _ _ E)]. Qed.
Lemma no_nans_delete m k : no_nans m -> no_nans (delete k m).
Proof. intros H k' s' E. apply lookup_delete_Some in E as [_ E]. exact (H _ _ E). Qed.
Lemma no_nans_filter (P : bytes * f64 -> Prop) `{forall x, Decision (P x)} m : no_nans m -> no_nans (filter P m).
Proof. intros Hm k' s' E. apply map_filter_lookup_Some in E as [E _]. exact (Hm _ _ E). Qed.
Lemma no_nans_empty : no_nans ∅.
Proof. intros k s E. by rewrite lookup_empty in E. Qed.

(** ** Tree operations on listings *)
Lemma remove_listing m k s : no_nans m -> m !! k = Some s ->
  bt_remove (Node s k) (listing m) = Some (listing (delete k m)).
Proof.
  intros Hm E. destruct (listing_spec m Hm) as (A & B & C). unfold bt_remove.
  rewrite clash_none; [|done|exact (Hm _ _ E)]. f_equal.
  destruct (del_spec_z (Node s k) (listing m) A B) as (D1 & D2 & D3); [by apply C|].
  apply listing_unique; [by apply no_nans_delete|done|].
  intros n. rewrite D3, C, lookup_delete_Some. split; intros [H1 H2]; split; try done.
  - intros ->. apply H2. rewrite E in H1. destruct n; cbn in *. congruence.
  - intros ->. by apply H1.
Qed.
Lemma insert_listing m k s : no_nans m -> not_nan s -> m !! k = None ->
  bt_insert (Node s k) (listing m) = Some (listing (<[k := s]> m)).
Proof.
  intros Hm Hs E. destruct (listing_spec m Hm) as (A & B & C). unfold bt_insert.
  rewrite clash_none by done. f_equal.
  destruct (ins_spec (Node s k) (listing m) A B Hs) as (D1 & D2 & D3).
  { intros x Hx. apply C in Hx. cbn. intros Ek. rewrite Ek in Hx. congruence. }
  apply listing_unique; [by apply no_nans_insert|done|].
  intros n. rewrite D3, C, lookup_insert_Some. split.
  - intros [->|H]; [by left|]. right. split; [|done]. intros Ek. rewrite <- Ek in H. congruence.
  - intros [[H1 H2]|[_ H]]; [left|by right]. destruct n; cbn in *. congruence.
Qed.

(** ** ZADD *)
Definition zrep (m : gmap bytes f64) (u : nat) : zstate := ZState (nodes_of m) (listing m) u.

(** What the code allows ([zadd_can]), in terms of scores. *)
Lemma zadd_can_old nx gl m n :
  zadd_can nx gl (nodes_of m !! n_key n) n = zadd_can nx gl ((fun s => Node s (n_key n)) <$> m !! n_key n) n.
Proof. by rewrite nodes_of_lookup. Qed.

Lemma zadd_node_rep nx gl m u n : no_nans m -> not_nan (n_score n) ->
  zadd_node nx gl false (zrep m u) n =
    (if zadd_can nx gl (nodes_of m !! n_key n) n then zrep (<[n_key n := n_score n]> m) (S u) else zrep m u, false).
Proof.
  intros Hm Hn. unfold zadd_node, zrep. cbn [z_hash z_value z_upd].
  destruct (zadd_can _ _ _ _); [|done].
  rewrite nodes_of_lookup. destruct n as [s k]. cbn [n_key n_score] in *.
  destruct (m !! k) as [s0|] eqn:E; cbn [fmap option_fmap option_map].
  - rewrite (remove_listing m k s0) by done.
    rewrite (insert_listing (delete k m) k s); [|by apply no_nans_delete|done|by rewrite lookup_delete].
    by rewrite nodes_of_insert, insert_delete_insert.
  - rewrite insert_listing by done. by rewrite nodes_of_insert.
Qed.

Lemma zadd_regular_can nx gl m n : zadd_regular nx gl ->
  zadd_can nx gl (nodes_of m !! n_key n) n = zadd_allowed nx gl (m !! n_key n) (n_score n).
Proof.
  intros R. rewrite nodes_of_lookup. unfold zadd_can, zadd_allowed, f64_gt, f64_lt.
  assert (F : forall x y, match f64_cmp x y with Some Gt => true | _ => false end = match f64_cmp y x with Some Lt => true | _ => false end).
  { intros x y. rewrite !f64_cmp_key. destruct (fkey x) as [a|], (fkey y) as [b|]; try done.
    destruct (lex3 a b) eqn:E.
    - apply lex3_eq in E as ->. by rewrite (proj2 (lex3_eq b b) eq_refl).
    - rewrite (proj2 (lex3_gt b a) E). done.
    - by rewrite (proj1 (lex3_gt a b) E). }
  destruct R as [->| ->]; destruct (m !! n_key n) as [s|]; try (destruct nx; done); destruct gl; cbn; try done; apply F.
Qed.

Lemma zadd_loop_rep nx gl ns m u : no_nans m -> Forall (fun n => not_nan (n_score n)) ns ->
  exists m' u', zadd_loop nx gl false (zrep m u) ns = (zrep m' u', false) /\ no_nans m' /\
    (zadd_regular nx gl -> fold_left (zadd_one nx gl) ns (m, u) = (m', u')).
Proof.
  intros Hm Hns. revert m u Hm; induction Hns as [|n ns Hn _ IH]; intros m u Hm.
  - exists m, u. done.
  - cbn [zadd_loop fold_left]. rewrite zadd_node_rep by done.
    destruct (zadd_can nx gl (nodes_of m !! n_key n) n) eqn:E.
    + destruct (IH (<[n_key n := n_score n]> m) (S u)) as (m' & u' & I1 & I2 & I3); [by apply no_nans_insert|].
      exists m', u'. split; [done|]. split; [done|]. intros R. rewrite <- I3 by done. f_equal.
      unfold zadd_one. cbn [fst snd]. by rewrite <- (zadd_regular_can nx gl m n R), E.
    + destruct (IH m u Hm) as (m' & u' & I1 & I2 & I3).
      exists m', u'. split; [done|]. split; [done|]. intros R. rewrite <- I3 by done. f_equal.
      unfold zadd_one. cbn [fst snd]. by rewrite <- (zadd_regular_can nx gl m n R), E.
Qed.

(** ** Removals *)
Lemma without_members_cons x ms m : without_members (x :: ms) m = without_members ms (delete x m).
Proof.
  unfold without_members. apply map_eq. intros k. apply option_eq. intros s.
  rewrite !map_filter_lookup_Some, lookup_delete_Some. cbn. rewrite not_elem_of_cons. naive_solver.
Qed.
Lemma without_members_nil m : without_members [] m = m.
Proof. apply map_filter_id. intros. cbn. apply not_elem_of_nil. Qed.

Lemma zrem_loop_rep ms m : no_nans m ->
  zrem_loop (nodes_of m) (listing m) ms =
    (nodes_of (without_members ms m), listing (without_members ms m), false).
Proof.
  revert m; induction ms as [|x ms IH]; intros m Hm; cbn [zrem_loop].
  - by rewrite without_members_nil.
  - rewrite without_members_cons, nodes_of_lookup. destruct (m !! x) as [s|] eqn:E; cbn [fmap option_fmap option_map].
    + rewrite (remove_listing m x s) by done. rewrite nodes_of_delete. apply IH. by apply no_nans_delete.
    + rewrite delete_notin by done. by apply IH.
Qed.
Lemma zremove_nodes_rep ns m : no_nans m -> NoDup ns -> (forall n, n ∈ ns -> m !! n_key n = Some (n_score n)) ->
  zremove_nodes (nodes_of m) (listing m) ns =
    (nodes_of (without_members (map n_key ns) m), listing (without_members (map n_key ns) m), ns, false).
Proof.
  revert m; induction ns as [|n ns IH]; intros m Hm ND Hns; cbn [zremove_nodes map].
  - by rewrite without_members_nil.
  - inversion ND as [|? ? Hn ND']; subst.
    pose proof (Hns n (elem_of_list_here _ _)) as En. destruct n as [s k]. cbn [n_key n_score] in *.
    rewrite (remove_listing m k s) by done. rewrite nodes_of_delete, IH; [|by apply no_nans_delete|done|].
    + rewrite nodes_of_lookup, En. cbn. by rewrite without_members_cons.
    + intros x Hx. pose proof (Hns x (elem_of_list_further _ _ _ Hx)) as Ex.
      rewrite lookup_delete_Some. split; [|done]. intros Ek. apply Hn.
      replace (Node s k) with x; [done|]. destruct x; cbn in *. congruence.
Qed.

(** ** Ranks *)
Lemma rank_scan_interval b e i (l : list node) :
  rank_scan b e (enumerate_from i l) = firstn (N.to_nat (e - N.max b i)) (skipn (N.to_nat (b - i)) l).
Proof.
  revert i; induction l as [|n l IH]; intros i; cbn [enumerate_from rank_scan]; [by rewrite skipn_nil, firstn_nil|].
  destruct (N.ltb_spec i b) as [H|H].
  - rewrite IH. replace (N.to_nat (b - i)) with (S (N.to_nat (b - (i + 1)))) by lia. cbn [skipn]. f_equal. lia.
  - replace (N.to_nat (b - i)) with O by lia. cbn [skipn]. destruct (N.leb_spec e i) as [H'|H'].
    + replace (N.to_nat (e - N.max b i)) with O by lia. done.
    + rewrite IH. replace (N.to_nat (e - N.max b i)) with (S (N.to_nat (e - N.max b (i + 1)))) by lia.
      replace (N.to_nat (b - (i + 1))) with O by lia. done.
Qed.
Lemma enumerate_interval {A} b e i (l : list A) :
  map snd (List.filter (fun p => (b <=? fst p)%N && (fst p <? e)%N) (enumerate_from i l)) =
  firstn (N.to_nat (e - N.max b i)) (skipn (N.to_nat (b - i)) l).
Proof.
  revert i; induction l as [|n l IH]; intros i; cbn [enumerate_from List.filter fst]; [by rewrite skipn_nil, firstn_nil|].
  destruct (N.leb_spec b i) as [H|H]; cbn [andb].
  - replace (N.to_nat (b - i)) with O by lia. cbn [skipn]. destruct (N.ltb_spec i e) as [H'|H'].
    + cbn [map snd]. rewrite IH. replace (N.to_nat (e - N.max b i)) with (S (N.to_nat (e - N.max b (i + 1)))) by lia.
      replace (N.to_nat (b - (i + 1))) with O by lia. done.
    + rewrite IH. replace (N.to_nat (e - N.max b i)) with O by lia.
      replace (N.to_nat (e - N.max b (i + 1))) with O by lia. done.
  - rewrite IH. replace (N.to_nat (b - i)) with (S (N.to_nat (b - (i + 1)))) by lia. cbn [skipn]. f_equal. lia.
Qed.
Lemma rank_scan_slice a b (l : list node) :
  let '(s, e) := shape_rank a b (length l) in rank_scan s e (enumerate l) = slice a b l.
Proof.
  pose proof (slice_shape a b l) as H. destruct (shape_rank a b (length l)) as [s e]. rewrite <- H.
  unfold enumerate. rewrite rank_scan_interval, take_N_nat, drop_N_nat. f_equal; [|f_equal]; lia.
Qed.
Lemma enumerate_slice {A} a b (l : list A) :
  let '(s, e) := shape_rank a b (length l) in
  map snd (List.filter (fun p => (s <=? fst p)%N && (fst p <? e)%N) (enumerate l)) = slice a b l.
Proof.
  pose proof (slice_shape a b l) as H. destruct (shape_rank a b (length l)) as [s e]. rewrite <- H.
  unfold enumerate. rewrite enumerate_interval, take_N_nat, drop_N_nat. f_equal; [|f_equal]; lia.
Qed.

Lemma slice_In {A} a b (l : list A) x : x ∈ slice a b l -> x ∈ l.
Proof.
  unfold slice. rewrite positions_interval. intros H.
  apply elem_of_list_In in H. apply elem_of_list_In.
  assert (forall n (l : list A), In x (firstn n l) -> In x l) as F.
  { intros n l0 Hx. rewrite <- (firstn_skipn n l0). apply in_or_app. by left. }
  assert (forall n (l : list A), In x (skipn n l) -> In x l) as G.
  { intros n l0 Hx. rewrite <- (firstn_skipn n l0). apply in_or_app. by right. }
  eapply G, F, H.
Qed.
Lemma slice_nodup {A} a b (l : list A) : NoDup l -> NoDup (slice a b l).
Proof.
  unfold slice. rewrite positions_interval. intros H.
  assert (forall n (l : list A), NoDup l -> NoDup (firstn n l) /\ NoDup (skipn n l)) as F.
  { intros n l0 Hl. rewrite <- (firstn_skipn n l0) in Hl. apply NoDup_app in Hl. tauto. }
  apply F, F, H.
Qed.
Lemma slice_length {A} a b (l : list A) : (length (slice a b l) <= length l)%nat.
Proof. unfold slice. rewrite positions_interval, firstn_length, skipn_length. lia. Qed.

(** ** LIMIT *)
Lemma limit_window {A} lim len (l : list A) : limit_regular lim -> (length l <= len)%nat ->
  let '(offset, count) := shape_limit lim len in take_N count (drop_N offset l) = window lim l.
Proof.
  intros R H. unfold shape_limit, window. destruct lim as [[o c]|]; cbn [limit_regular] in R.
  - replace (o <? 0)%Z with false by lia. rewrite take_N_nat, drop_N_nat.
    rewrite Z_N_nat. destruct (Z.ltb_spec c 0) as [E|E].
    + apply firstn_all2. rewrite skipn_length. lia.
    + by rewrite Z_N_nat.
  - rewrite take_N_nat, drop_N_nat. change (N.to_nat 0) with O. cbn [skipn]. apply firstn_all2. lia.
Qed.
Lemma map_window {A B} (f : A -> B) offset count (l : list A) :
  map f (take_N count (drop_N offset l)) = take_N count (drop_N offset (map f l)).
Proof. by rewrite !take_N_nat, !drop_N_nat, skipn_map, firstn_map. Qed.

(** ** Score intervals *)
Lemma filter_rev_l {A} (f : A -> bool) l : List.filter f (rev l) = rev (List.filter f l).
Proof.
  induction l as [|x l IH]; [done|]. cbn [rev List.filter]. rewrite filter_app, IH. cbn [List.filter].
  destruct (f x); cbn [rev]; [done|by rewrite app_nil_r].
Qed.
Lemma filter_twice {A} (f g : A -> bool) l :
  (forall x, x ∈ l -> f x = true -> g x = true) -> List.filter f (List.filter g l) = List.filter f l.
Proof.
  induction l as [|x l IH]; intros H; [done|]. cbn [List.filter].
  assert (IH' : List.filter f (List.filter g l) = List.filter f l) by (apply IH; intros y Hy; apply H; by right).
  specialize (H x (elem_of_list_here _ _)). destruct (g x) eqn:G; cbn [List.filter].
  - by rewrite IH'.
  - destruct (f x) eqn:F; [by discriminate H|done].
Qed.
Lemma score_in_bounds r x : score_in r x = above_bound (fst r) x && below_bound (snd r) x.
Proof. done. Qed.

Lemma nanless_existsb l : nanless l -> existsb node_nan l = false.
Proof. induction 1 as [|x l Hx _ IH]; [done|]. cbn. by rewrite Hx, IH. Qed.

Lemma f64_lt_not_nan x y : f64_lt x y = true -> not_nan x /\ not_nan y.
Proof.
  unfold f64_lt, not_nan. rewrite f64_cmp_key. intros H.
  destruct (fkey x) eqn:E1, (fkey y) eqn:E2; try done. split; apply fkey_nan; eauto.
Qed.

Lemma above_ok (lo : bound f64) n : above_bound lo (n_score n) = true -> above (bound_map (fun f => Node f []) lo) n = true.
Proof.
  destruct lo as [|a|a]; cbn; [done| |]; unfold f64_le, f64_lt, node_cmp; cbn;
    destruct (f64_cmp a (n_score n)) as [[]|]; try done.
  by destruct (n_key n).
Qed.
Lemma below_ok (hi : bound f64) n :
  match hi with Unbounded => True | Included b | Excluded b => f64_lt b (f64_add b f64_tenth) = true end ->
  below_bound hi (n_score n) = true -> below (bound_map (fun f => Node (f64_add f f64_tenth) []) hi) n = true.
Proof.
  destruct hi as [|b|b]; cbn; [done| |]; intros R H.
  - assert (L : f64_lt (n_score n) (f64_add b f64_tenth) = true) by (by eapply f64_le_lt_trans).
    unfold f64_lt in L. unfold node_cmp. cbn. destruct (f64_cmp (n_score n) _) as [[]|]; done.
  - assert (L : f64_lt (n_score n) (f64_add b f64_tenth) = true) by (eapply f64_le_lt_trans; [by apply f64_lt_le|done]).
    unfold f64_lt in L. unfold node_cmp. cbn. destruct (f64_cmp (n_score n) _) as [[]|]; done.
Qed.
Lemma score_search r l lo hi : score_range_regular r -> nanless l -> bigger_range r = (lo, hi) ->
  exists it, bt_range lo hi l = Some it /\ List.filter (fun n => score_in r (n_score n)) it = by_score r l.
Proof.
  destruct r as [a b]. intros (Ra & Rb & Rab) Nl [= <- <-]. cbn [fst snd] in *.
  destruct l as [|n l]; [by exists []|]. unfold bt_range.
  rewrite (nanless_existsb _ Nl). cbn [andb].
  replace (bt_range_invalid _ _) with false.
  2: { unfold bt_range_invalid. destruct a as [|a|a], b as [|b|b]; cbn in *; try done;
       (unfold node_cmp; cbn [n_score n_key];
        assert (L : f64_lt a (f64_add b f64_tenth) = true) by (by eapply f64_le_lt_trans);
        unfold f64_lt in L; by destruct (f64_cmp a _) as [[]|]). }
  replace (bound_nan _ || bound_nan _) with false.
  2: { unfold bound_nan. destruct a as [|a|a], b as [|b|b]; cbn in *; try done; unfold node_nan; cbn [n_score];
       try (pose proof (proj2 (f64_lt_not_nan _ _ Rb)) as Hb; unfold not_nan in *; rewrite ?Hb);
       unfold not_nan in *; rewrite ?Ra; done. }
  eexists. split; [reflexivity|]. unfold by_score. cbn [fst snd].
  apply filter_twice. intros x _ H. unfold score_in in H. cbn [fst snd] in H. apply andb_prop in H as [H1 H2].
  rewrite (above_ok a x H1), (below_ok b x Rb H2). done.
Qed.
Lemma by_score_In r l n : n ∈ by_score r l -> n ∈ l.
Proof. unfold by_score. rewrite !elem_of_list_In. intros H. apply filter_In in H as [H _]. exact H. Qed.
Lemma filter_nodup_l {A} (f : A -> bool) (l : list A) : NoDup l -> NoDup (List.filter f l).
Proof.
  induction 1 as [|x l Hx _ IH]; cbn; [constructor|]. destruct (f x); [|done]. constructor; [|done].
  intros H. apply Hx. apply elem_of_list_In in H. apply filter_In in H as [H _]. by apply elem_of_list_In.
Qed.

Lemma filter_length_l {A} (f : A -> bool) (l : list A) : (length (List.filter f l) <= length l)%nat.
Proof. induction l as [|x l IH]; [done|]. cbn. destruct (f x); cbn; lia. Qed.

(** ** Positions *)
Lemma position_index m i l : position m i l = (fun j => (i + j)%nat) <$> index_of m l.
Proof.
  revert i; induction l as [|n l IH]; intros i; [done|]. cbn [position index_of].
  destruct (decide (n_key n = m)); cbn; [f_equal; lia|]. rewrite IH. destruct (index_of m l); cbn; [|done]. f_equal. lia.
Qed.
Lemma index_of_none m l : (forall n, n ∈ l -> n_key n <> m) -> index_of m l = None.
Proof.
  induction l as [|n l IH]; intros H; [done|]. cbn. rewrite decide_False by (exact (H n (elem_of_list_here _ _))).
  rewrite IH; [done|]. intros x Hx. apply H. by right.
Qed.

Lemma without_members_ok ms m : no_nans m -> no_nans (without_members ms m).
Proof. apply no_nans_filter. Qed.

Definition zset_ok (s : option (gmap bytes f64)) : Prop := match s with Some m => no_nans m | None => True end.

Lemma slice_nil {A} a b : slice a b (@nil A) = [].
Proof. done. Qed.
Lemma listing_empty : listing ∅ = [].
Proof. done. Qed.
Lemma window_nil {A} lim : window lim (@nil A) = [].
Proof. destruct lim as [[o c]|]; [|done]. cbn. rewrite skipn_nil, firstn_nil. by destruct (c <? 0)%Z. Qed.

Lemma zset_sim k ho now o d e s :
  zset_regular o -> zset_ok s ->
  lives now e -> (s = None -> e = 0%N) -> contents d k = stored zset_data e s ->
  contents (fst (flat_cmd ho now (zset_cmd k o) d)) k = stored zset_data e (fst (zset_step o s)) /\
  snd (flat_cmd ho now (zset_cmd k o) d) = snd (zset_step o s) /\
  (fst (zset_step o s) = None -> e = 0%N) /\ zset_ok (fst (zset_step o s)).
Proof.
  intros R I L N C. pose proof (get_stored _ _ _ _ _ _ L C) as G.
  assert (Hd : no_nans (default ∅ s)) by (destruct s; [done|apply no_nans_empty]).
  destruct (goi_stored zset_data ∅ _ _ _ _ _ L N C) as (w & d2 & GI & DI & XI & CI).
  destruct o as [ns nx gl|ms|a b|r|mb rv|a b lim rv|r lim rv]; cbn [zset_cmd flat_cmd wapply rapply zset_step zset_regular] in *; cmd_unfold.
  - unfold zset_data at 1 in GI. change (nodes_of ∅) with (∅ : gmap bytes node) in GI. rewrite listing_empty in GI.
    rewrite GI, DI. unfold zset_data. destruct R as [Rn Rr].
    destruct (zadd_loop_rep nx gl ns (default ∅ s) 0 Hd Rn) as (m' & u' & Z1 & Z2 & Z3).
    unfold zrep in Z1. rewrite Z1, (Z3 Rr). cbn [fst snd outcome_map z_hash z_value z_upd].
    rewrite contents_put. unfold content. cbn [with_data v_data v_exp]. rewrite XI, !nodes_of_size. done.
  - destruct s as [m|].
    + destruct G as (v & d1 & -> & D & X & C1). rewrite D. unfold zset_data. rewrite zrem_loop_rep by done.
      cbn [fst snd outcome_map default]. rewrite contents_put. subst e. rewrite !nodes_of_size.
      split; [done|]. split; [done|]. split; [done|]. by apply without_members_ok.
    + rewrite G. done.
  - destruct s as [m|].
    + destruct G as (v & d1 & -> & D & X & C1). rewrite D. unfold zset_data.
      rewrite nodes_of_size, <- (listing_length m I). cbn [default] in *.
      pose proof (rank_scan_slice a b (listing m)) as RS. destruct (shape_rank a b (length (listing m))) as [x y].
      rewrite RS. destruct (listing_spec m I) as (A & _ & B).
      rewrite zremove_nodes_rep; [|done|apply slice_nodup; by apply zsorted_nodup|].
      * cbn [zremove_finish fst snd outcome_map fmap option_fmap option_map]. rewrite contents_put. subst e.
        split; [done|]. split; [done|]. split; [done|]. by apply without_members_ok.
      * intros n Hn. apply B. by eapply slice_In.
    + rewrite G. done.
  - destruct s as [m|].
    + destruct G as (v & d1 & -> & D & X & C1). rewrite D. unfold zset_data. cbn [default] in *.
      destruct (listing_spec m I) as (A & A' & B).
      destruct (bigger_range r) as [lo hi] eqn:BR.
      destruct (score_search r (listing m) lo hi R A' BR) as (it & -> & ->).
      rewrite zremove_nodes_rep; [|done|apply filter_nodup_l; by apply zsorted_nodup|].
      * cbn [zremove_finish fst snd outcome_map fmap option_fmap option_map]. rewrite contents_put. subst e.
        split; [done|]. split; [done|]. split; [done|]. by apply without_members_ok.
      * intros n Hn. apply B. by eapply by_score_In.
    + rewrite G. done.
  - destruct s as [m|].
    + destruct G as (v & d1 & -> & D & X & C1). rewrite D. unfold zset_data. cbn [default] in *.
      rewrite nodes_of_lookup. destruct (listing_spec m I) as (A & A' & B).
      destruct (m !! mb) as [s|] eqn:E; cbn [fmap option_fmap option_map fst snd outcome_map].
      * split; [done|]. split; [|done]. do 2 f_equal. rewrite position_index. unfold directed.
        by destruct (index_of mb _).
      * split; [done|]. split; [|done]. do 2 f_equal. symmetry. apply index_of_none.
        intros n Hn Ek. assert (Hn' : n ∈ listing m).
        { unfold directed in Hn. destruct rv; [|done]. apply elem_of_list_In. apply in_rev. by apply elem_of_list_In. }
        apply B in Hn'. rewrite Ek in Hn'. congruence.
    + rewrite G. cbn [fst snd outcome_map default]. rewrite C. split; [done|]. split; [|done]. by destruct rv.
  - destruct s as [m|].
    + destruct G as (v & d1 & -> & D & X & C1). rewrite D. unfold zset_data. cbn [default] in *.
      assert (LE : length (directed rv (listing m)) = length (listing m)) by (destruct rv; [apply rev_length|done]).
      pose proof (enumerate_slice a b (directed rv (listing m))) as RS. rewrite LE in RS.
      pose proof (limit_window lim (length (listing m)) (slice a b (directed rv (listing m))) R) as W.
      destruct (shape_limit lim _) as [offset count]. destruct (shape_rank a b _) as [x y].
      cbn [fst snd outcome_map]. split; [done|]. split; [|done]. do 2 f_equal.
      rewrite map_window. unfold directed in *. rewrite RS. apply W. rewrite <- LE. apply slice_length.
    + rewrite G. cbn [fst snd outcome_map default]. rewrite C. split; [done|]. split; [|done].
      rewrite listing_empty. destruct rv; cbn [directed rev]; by rewrite slice_nil, window_nil.
  - destruct R as [R Rl]. destruct s as [m|].
    + destruct G as (v & d1 & -> & D & X & C1). rewrite D. unfold zset_data. cbn [default] in *.
      destruct (listing_spec m I) as (A & A' & B).
      destruct (bigger_range r) as [lo hi] eqn:BR.
      destruct (score_search r (listing m) lo hi R A' BR) as (it & -> & E2).
      pose proof (limit_window lim (length (listing m)) (directed rv (by_score r (listing m))) Rl) as W.
      destruct (shape_limit lim _) as [offset count]. cbn [fst snd outcome_map].
      split; [done|]. split; [|done]. do 2 f_equal. etransitivity; [|apply W].
      * f_equal. f_equal. unfold directed. destruct rv; [by rewrite filter_rev_l, E2|done].
      * unfold directed, by_score. destruct rv; rewrite ?rev_length; apply filter_length_l.
    + rewrite G. cbn [fst snd outcome_map default]. rewrite C. split; [done|]. split; [|done].
      rewrite listing_empty. destruct rv; cbn [directed rev by_score List.filter]; by rewrite window_nil.
Qed.
