(** C31 for every history, ZADD INCR, NaN scores, RESTORE and panics included: the tree of a sorted set stays a
    proper ordered tree; and without panics every member is found in it. *)
From Verif Require Import ZsetInv PropZset Bincode SerdeFacts.

Local Arguments dict_put : simpl never.
Local Arguments touch : simpl never.

(** The elements are in strictly increasing order; a NaN can only be the single element. *)
Definition tree_ordered_at (x : data) : Prop :=
  match x with
  | DZSet _ l => StronglySorted node_before l /\ (Forall (fun n => not_nan (n_score n)) l \/ exists n, l = [n])
  | _ => True
  end.
(** The hash files every node under its member name, and the tree has a node of that member. *)
Definition members_in_tree (x : data) : Prop :=
  match x with
  | DZSet h l => forall k n, h !! k = Some n -> n_key n = k /\ exists s, Node s k ∈ l
  | _ => True
  end.

(** ** Tree operations *)
Definition tree_ok (l : list node) : Prop := zsorted l /\ (nanless l \/ exists n, l = [n]).
Lemma tree_ok_iff h l : tree_ordered_at (DZSet h l) <-> tree_ok l.
Proof. cbn. unfold tree_ok. by rewrite zsorted_before. Qed.
Lemma zsorted_one n : zsorted [n].
Proof. repeat constructor. Qed.

Lemma ins_any n l : zsorted l -> nanless l -> node_nan n = false -> zsorted (ins n l) /\ nanless (ins n l).
Proof.
  intros S Nl Nn. assert (SUB : forall l, forall x, x ∈ ins n l -> x = n \/ x ∈ l).
  { clear. induction l as [|a l IH]; intros x; cbn; [set_solver|].
    repeat case_match; rewrite ?elem_of_cons; try tauto; intros [->|H']; auto; apply IH in H' as [->|H']; auto. }
  induction S as [|a l S IH H]; [by repeat constructor|].
  inversion Nl as [|? ? Na Nl']; subst. cbn [ins].
  destruct (node_cmp_total n a Nn Na) as [c Hc]. rewrite Hc. destruct c.
  - split; [by constructor|done].
  - split; [|by constructor]. constructor; [by constructor|]. constructor; [done|].
    eapply list.Forall_impl; [exact H|]. intros x Hx. by eapply node_lt_trans.
  - destruct (IH Nl') as [I1 I2]. split; [|by constructor]. constructor; [done|].
    apply list.Forall_forall. intros x Hx. apply SUB in Hx as [->|Hx]; [by apply node_cmp_gt|].
    rewrite list.Forall_forall in H. by apply H.
Qed.
Lemma del_sub n l x : x ∈ del n l -> x ∈ l.
Proof.
  induction l as [|a l IH]; cbn; [done|]. repeat case_match; rewrite ?elem_of_cons; try tauto; intros [->|?]; auto.
Qed.
Lemma del_any n l : zsorted l -> zsorted (del n l).
Proof.
  induction 1 as [|a l S IH H]; [constructor|]. cbn. repeat case_match; try done; try (by constructor).
  all: constructor; [done|]; apply list.Forall_forall; intros x Hx; apply del_sub in Hx; rewrite list.Forall_forall in H; by apply H.
Qed.
Lemma insert_ok n l l' : tree_ok l -> bt_insert n l = Some l' -> tree_ok l'.
Proof.
  intros [S D]. unfold bt_insert. destruct (bt_clash n l) eqn:C; [done|]. intros [= <-].
  destruct l as [|a l]; [split; [apply zsorted_one|right; by exists n]|].
  cbn [bt_clash] in C. apply orb_false_iff in C as [C1 C2].
  assert (Nl : nanless (a :: l)).
  { destruct D as [D|[x [= -> ->]]]; [done|]. constructor; [|done]. cbn [existsb] in C2. by apply orb_false_iff in C2 as [C2 _]. }
  destruct (ins_any n (a :: l) S Nl C1) as [I1 I2]. split; [done|]. by left.
Qed.
Lemma remove_ok n l l' : tree_ok l -> bt_remove n l = Some l' -> tree_ok l'.
Proof.
  intros [S D]. unfold bt_remove. destruct (bt_clash n l) eqn:C; [done|]. intros [= <-].
  split; [by apply del_any|]. destruct D as [D|[x ->]].
  - left. apply list.Forall_forall. intros x Hx. apply del_sub in Hx. rewrite list.Forall_forall in D. by apply D.
  - cbn. destruct (node_cmp n x) as [[]|]; [by left|right; by exists x..].
Qed.
Lemma tree_ok_nil : tree_ok [].
Proof. split; [constructor|left; constructor]. Qed.

Lemma zadd_loop_ok nx gl incr ns z : tree_ok (z_value z) -> tree_ok (z_value (fst (zadd_loop nx gl incr z ns))).
Proof.
  revert z; induction ns as [|n ns IH]; intros z T; [done|]. cbn [zadd_loop].
  assert (T1 : tree_ok (z_value (fst (zadd_node nx gl incr z n)))).
  { unfold zadd_node. destruct (zadd_can _ _ _ _); [|done]. destruct (z_hash z !! n_key n) as [on|].
    - destruct (bt_remove on (z_value z)) as [v1|] eqn:E1; [|done]. pose proof (remove_ok _ _ _ T E1) as T1.
      destruct (bt_insert _ v1) as [v2|] eqn:E2; [|done]. exact (insert_ok _ _ _ T1 E2).
    - destruct (bt_insert n (z_value z)) as [v2|] eqn:E2; [|done]. exact (insert_ok _ _ _ T E2). }
  destruct (zadd_node nx gl incr z n) as [z' p]. destruct p; [done|]. by apply IH.
Qed.
Lemma zrem_loop_ok ms h l : tree_ok l -> tree_ok (snd (fst (zrem_loop h l ms))).
Proof.
  revert h l; induction ms as [|m ms IH]; intros h l T; [done|]. cbn [zrem_loop].
  destruct (h !! m) as [on|]; [|by apply IH]. destruct (bt_remove on l) as [l'|] eqn:E; [|done].
  apply IH. exact (remove_ok _ _ _ T E).
Qed.
Lemma zremove_nodes_ok ns h l : tree_ok l -> tree_ok (snd (fst (fst (zremove_nodes h l ns)))).
Proof.
  revert h l; induction ns as [|n ns IH]; intros h l T; [done|]. cbn [zremove_nodes].
  destruct (bt_remove n l) as [l'|] eqn:E; [|done]. pose proof (IH (delete (n_key n) h) l' (remove_ok _ _ _ T E)) as H.
  by destruct (zremove_nodes (delete (n_key n) h) l' ns) as [[[h' l''] res] p].
Qed.
Lemma btree_ok l t : btree_of_elems l = Some t -> tree_ok t.
Proof.
  unfold btree_of_elems. assert (G : forall l o t, (forall u, o = Some u -> tree_ok u) ->
    fold_left (fun o n => match o with Some t => bt_insert n t | None => None end) l o = Some t -> tree_ok t).
  { clear. induction l as [|n l IH]; intros o t H E; [by apply H|]. cbn [fold_left] in E. apply (IH _ _) in E; [done|].
    intros u Hu. destruct o as [v|]; [|done]. exact (insert_ok n v u (H v eq_refl) Hu). }
  apply G. intros u [= <-]. apply tree_ok_nil.
Qed.
Lemma get_data_ok s x r : get_data s = DOk x r -> tree_ordered_at x.
Proof.
  unfold get_data, dbind. destruct (get_u32 s) as [t r0| |]; try done.
  destruct (get_scalar_tag t) as [g|].
  - destruct (g r0); try done. by intros [= <- <-].
  - intros H. repeat (case_match; try discriminate H); injection H as <- <-; try done.
    match goal with H : get_btree _ = DOk _ _ |- _ => unfold get_btree in H; revert H end.
    repeat (case_match; try done). intros [= <- <-]. apply tree_ok_iff. by eapply btree_ok.
Qed.

Definition ordered_at (d : dict) (k : bytes) : Prop := forall x e, contents d k = Some (x, e) -> tree_ordered_at x.
Lemma ordered_put k v d : tree_ordered_at (v_data v) -> ordered_at (dict_put k v d) k.
Proof. intros H x e. rewrite contents_put. unfold content. by intros [= <- <-]. Qed.
Lemma ordered_inner d k v : ordered_at d k -> inner d !! k = Some v -> tree_ordered_at (v_data v).
Proof. intros H E. apply (H (v_data v) (v_exp v)). unfold contents. by rewrite E. Qed.

Ltac solve_ordered :=
  rewrite ?dict_insert_put; cbn [fst snd outcome_map v_data with_data touch fresh_value];
  lazymatch goal with
  | G : ordered_at ?d ?k |- ordered_at ?d ?k => exact G
  | |- ordered_at (dict_put ?k _ _) ?k => apply ordered_put; cbn [v_data with_data touch fresh_value tree_ordered_at] in *; try (exact Logic.I); try assumption; try congruence
  | |- context [match ?x with _ => _ end] => split_match; solve_ordered
  end.

Lemma wapply_ordered now w d : ordered_at d (wkey w) -> ordered_at (fst (fst (wapply now w d))) (wkey w).
Proof.
  intros G. pose proof (ordered_inner d (wkey w)) as GI.
  destruct w; cbn [wapply wkey] in *; cmd_unfold.
  1: { unfold dict_remove. destruct (inner d !! k) as [v|]; cbn [fst snd]; intros x e; unfold contents; cbn; by rewrite lookup_delete. }
  all: try (case_get; [specialize (GI v G E)|]; solve_ordered; fail).
  - (* ZADD *)
    case_get; [specialize (GI v G E); pose proof GI as GI0; change (v_data (touch now v)) with (v_data v); destruct (v_data v) as [| | | |h l] eqn:D; rewrite <- ?D in GI0; try (exact (ordered_put k (touch now v) d GI0))|].
    + apply tree_ok_iff in GI. pose proof (zadd_loop_ok nx gl incr ns (ZState h l 0) GI) as Z.
      destruct (zadd_loop _ _ _ _ _) as [z p]. cbn [fst snd] in *. apply ordered_put. by apply tree_ok_iff.
    + cbn [v_data fresh_value]. pose proof (zadd_loop_ok nx gl incr ns (ZState ∅ [] 0) tree_ok_nil) as Z.
      destruct (zadd_loop _ _ _ _ _) as [z p]. cbn [fst snd] in *. apply ordered_put. by apply tree_ok_iff.
  - (* ZREM *) case_get; [|solve_ordered]. specialize (GI v G E). pose proof GI as GI0. change (v_data (touch now v)) with (v_data v).
    destruct (v_data v) as [| | | |h l] eqn:D; rewrite <- ?D in GI0; try (exact (ordered_put k (touch now v) d GI0)).
    apply tree_ok_iff in GI. pose proof (zrem_loop_ok ms h l GI) as Z. destruct (zrem_loop h l ms) as [[h' l'] p].
    cbn [fst snd] in *. apply ordered_put. by apply tree_ok_iff.
  - case_get; [|solve_ordered]. specialize (GI v G E). pose proof GI as GI0. change (v_data (touch now v)) with (v_data v).
    destruct (v_data v) as [| | | |h l] eqn:D; rewrite <- ?D in GI0; try (exact (ordered_put k (touch now v) d GI0)).
    apply tree_ok_iff in GI. destruct (shape_rank _ _ _) as [x y].
    match goal with |- context [zremove_nodes h l ?n] => pose proof (zremove_nodes_ok n h l GI) as Z; destruct (zremove_nodes h l n) as [[[h' l'] res] p] end.
    cbn [fst snd zremove_finish] in *. apply ordered_put. by apply tree_ok_iff.
  - case_get; [|solve_ordered]. specialize (GI v G E). pose proof GI as GI0. change (v_data (touch now v)) with (v_data v).
    destruct (v_data v) as [| | | |h l] eqn:D; rewrite <- ?D in GI0; try (exact (ordered_put k (touch now v) d GI0)).
    apply tree_ok_iff in GI. destruct (bigger_range r) as [lo hi].
    destruct (bt_range lo hi l) as [it|]; [|exact (ordered_put k (touch now v) d GI0)].
    match goal with |- context [zremove_nodes h l ?n] => pose proof (zremove_nodes_ok n h l GI) as Z; destruct (zremove_nodes h l n) as [[[h' l'] res] p] end.
    cbn [fst snd zremove_finish] in *. apply ordered_put. by apply tree_ok_iff.
  - case_get; [|solve_ordered]. specialize (GI v G E). pose proof GI as GI0. change (v_data (touch now v)) with (v_data v).
    destruct (v_data v) as [| | | |h l] eqn:D; rewrite <- ?D in GI0; try (exact (ordered_put k (touch now v) d GI0)).
    apply tree_ok_iff in GI. destruct l as [|n0 l0]; [exact (ordered_put k (touch now v) d GI0)|].
    destruct (lex_range (n_score n0) r) as [lo hi].
    destruct (bt_range lo hi (n0 :: l0)) as [it|]; [|exact (ordered_put k (touch now v) d GI0)].
    match goal with |- context [zremove_nodes h ?l ?n] => pose proof (zremove_nodes_ok n h l GI) as Z; destruct (zremove_nodes h l n) as [[[h' l'] res] p] end.
    cbn [fst snd zremove_finish] in *. apply ordered_put. by apply tree_ok_iff.
  - (* RESTORE *)
    assert (D : forall x, deserialize get_data (r_value r) = OOk x -> tree_ordered_at x).
    { intros x. unfold deserialize. destruct (get_data (r_value r)) as [y r'| |] eqn:GD; try done. intros H. apply get_data_ok in GD.
      repeat (case_match; try done). by injection H as <-. }
    case_get; [specialize (GI v G E)|]; destruct (r_replace r); cbn [fst snd];
      try (apply ordered_put; exact GI);
      destruct (deserialize get_data (r_value r)) as [x| |] eqn:DS; cbn [fst snd];
      first [ exact G | apply ordered_put; first [ exact GI | exact (D x eq_refl) ] ].
Qed.

(** ** C31: whatever is sent, the tree of every sorted set is strictly ordered, without duplicates, and holds a NaN
    only as its single element. *)
Theorem C31_any_history (ho : horder) (hist : list (N * cmd)) (k : bytes) (h : gmap bytes node) (l : list node) (e : N) :
  db_contents (fst (db_run ho hist db_empty)) k = Some (DZSet h l, e) ->
  StronglySorted node_before l /\ NoDup l /\ (Forall (fun n => not_nan (n_score n)) l \/ exists n, l = [n]).
Proof.
  intros C.
  assert (T : tree_ordered_at (DZSet h l)).
  { apply (db_run_keeps (fun _ => True) tree_ordered_at ho hist db_empty) with (k := k) (e := e); [|by apply list.Forall_forall; intros [? []]|done|done].
    intros now w d _. apply wapply_ordered. }
  cbn in T. destruct T as [T1 T2]. split; [done|]. split; [by apply zsorted_nodup, zsorted_before|done].
Qed.
Print Assumptions C31_any_history.
Example C31_any_history_case :
  db_contents (fst (db_run horder_default
    [(1%N, CWrite (WZAdd (bs "z") [Node (f64_of_Z 1) (bs "a"); Node (f64_of_Z 2) (bs "b")] NxXx_None GtLt_None false));
     (2%N, CWrite (WZAdd (bs "z") [Node (f64_of_Z 2) (bs "a")] NxXx_None GtLt_None true));
     (3%N, CWrite (WZAdd (bs "z") [Node (f64_of_Z 5) (bs "a")] NxXx_None GtLt_None true));
     (4%N, CWrite (WZAdd (bs "z") [Node S754_nan (bs "q")] NxXx_None GtLt_None false))] db_empty)) (bs "z") =
    Some (DZSet {[bs "a" := Node (f64_of_Z 5) (bs "a"); bs "b" := Node (f64_of_Z 2) (bs "b"); bs "q" := Node S754_nan (bs "q")]}
           [Node (f64_of_Z 2) (bs "b"); Node (f64_of_Z 3) (bs "a"); Node (f64_of_Z 7) (bs "a")], 0%N).
Proof. apply (bool_decide_eq_true_1 _). vm_compute. reflexivity. Qed.

(** ** Members are found in the tree *)
Lemma node_cmp_key a b : node_cmp a b = Some Eq -> n_key a = n_key b.
Proof.
  unfold node_cmp. destruct (f64_cmp _ _) as [[]|]; try done. intros [= H]. by apply bytes_cmp_eq.
Qed.
Lemma ins_keeps n l x : x ∈ l -> x ∈ ins n l.
Proof.
  induction l as [|a l IH]; cbn; [intros H; by apply elem_of_nil in H|]. rewrite elem_of_cons.
  repeat case_match; rewrite ?elem_of_cons; tauto.
Qed.
Lemma ins_has n l : exists s, Node s (n_key n) ∈ ins n l.
Proof.
  induction l as [|a l [s IH]]; cbn; [exists (n_score n); destruct n; left|].
  destruct (node_cmp n a) as [[]|] eqn:E.
  - exists (n_score a). rewrite (node_cmp_key _ _ E). destruct a; left.
  - exists (n_score n). destruct n; left.
  - exists s. by right.
  - exists s. by right.
Qed.
Lemma del_keeps n l x : x ∈ l -> n_key x <> n_key n -> x ∈ del n l.
Proof.
  intros H K. induction l as [|a l IH]; [done|]. cbn. apply elem_of_cons in H.
  destruct (node_cmp n a) as [[]|] eqn:E; rewrite ?elem_of_cons; try tauto.
  destruct H as [->|H]; [|done]. by destruct K; rewrite (node_cmp_key _ _ E).
Qed.
Definition filed (h : gmap bytes node) (l : list node) : Prop := forall k n, h !! k = Some n -> n_key n = k /\ exists s, Node s k ∈ l.

Lemma insert_filed n n' h l0 l l' : filed h l0 -> (forall k s, k <> n_key n -> Node s k ∈ l0 -> Node s k ∈ l) ->
  n_key n' = n_key n -> bt_insert n' l = Some l' -> filed (<[n_key n := n]> h) l'.
Proof.
  intros F K E. unfold bt_insert. destruct (bt_clash n' l); [done|]. intros [= <-] k m Hm.
  apply lookup_insert_Some in Hm as [[<- <-]|[N Hm]].
  - split; [done|]. rewrite <- E. apply ins_has.
  - destruct (F k m Hm) as [H1 [s H2]]. split; [done|]. exists s. apply ins_keeps. by apply K.
Qed.
Lemma remove_filed k on h l l' : filed h l -> n_key on = k -> bt_remove on l = Some l' -> filed (delete k h) l'.
Proof.
  intros F E. unfold bt_remove. destruct (bt_clash on l); [done|]. intros [= <-] k' m Hm.
  apply lookup_delete_Some in Hm as [N Hm]. destruct (F k' m Hm) as [H1 [s H2]]. split; [done|]. exists s.
  apply del_keeps; [done|]. cbn. congruence.
Qed.
Lemma zadd_loop_filed nx gl incr ns z : filed (z_hash z) (z_value z) ->
  snd (zadd_loop nx gl incr z ns) = false ->
  filed (z_hash (fst (zadd_loop nx gl incr z ns))) (z_value (fst (zadd_loop nx gl incr z ns))).
Proof.
  revert z; induction ns as [|n ns IH]; intros z F; [done|]. cbn [zadd_loop].
  assert (F1 : snd (zadd_node nx gl incr z n) = false -> filed (z_hash (fst (zadd_node nx gl incr z n))) (z_value (fst (zadd_node nx gl incr z n)))).
  { unfold zadd_node. destruct (zadd_can _ _ _ _); [|done]. destruct (z_hash z !! n_key n) as [on|] eqn:L.
    - destruct (bt_remove on (z_value z)) as [v1|] eqn:E1; [|done].
      destruct (bt_insert _ v1) as [v2|] eqn:E2; [|done]. intros _. cbn [fst z_hash z_value].
      refine (insert_filed n _ (z_hash z) (z_value z) v1 v2 F _ _ E2); [|by destruct incr].
      intros k s N H. revert E1. unfold bt_remove. destruct (bt_clash on _); [done|]. intros [= <-].
      apply del_keeps; [done|]. cbn. by rewrite (proj1 (F _ _ L)).
    - destruct (bt_insert n (z_value z)) as [v2|] eqn:E2; [|done]. intros _. cbn [fst z_hash z_value].
      by refine (insert_filed n n (z_hash z) (z_value z) _ v2 F _ eq_refl E2). }
  destruct (zadd_node nx gl incr z n) as [z' p]. destruct p; [done|]. apply IH. by apply F1.
Qed.
Lemma zrem_loop_filed ms h l : filed h l -> snd (zrem_loop h l ms) = false ->
  filed (fst (fst (zrem_loop h l ms))) (snd (fst (zrem_loop h l ms))).
Proof.
  revert h l; induction ms as [|m ms IH]; intros h l F; [done|]. cbn [zrem_loop].
  destruct (h !! m) as [on|] eqn:L; [|by apply IH]. destruct (bt_remove on l) as [l'|] eqn:E; [|done].
  apply IH. exact (remove_filed m on h l l' F (proj1 (F _ _ L)) E).
Qed.
Lemma zremove_nodes_filed ns h l : filed h l -> snd (zremove_nodes h l ns) = false ->
  filed (fst (fst (fst (zremove_nodes h l ns)))) (snd (fst (fst (zremove_nodes h l ns)))).
Proof.
  revert h l; induction ns as [|n ns IH]; intros h l F; [done|]. cbn [zremove_nodes].
  destruct (bt_remove n l) as [l'|] eqn:E; [|done].
  pose proof (IH (delete (n_key n) h) l' (remove_filed (n_key n) n h l l' F eq_refl E)) as H.
  by destruct (zremove_nodes (delete (n_key n) h) l' ns) as [[[h' l''] res] p].
Qed.

Definition filed_at (d : dict) (k : bytes) : Prop := forall x e, contents d k = Some (x, e) -> members_in_tree x.
Lemma filed_put k v d : members_in_tree (v_data v) -> filed_at (dict_put k v d) k.
Proof. intros H x e. rewrite contents_put. unfold content. by intros [= <- <-]. Qed.
Lemma filed_inner d k v : filed_at d k -> inner d !! k = Some v -> members_in_tree (v_data v).
Proof. intros H E. apply (H (v_data v) (v_exp v)). unfold contents. by rewrite E. Qed.

Ltac solve_filed :=
  rewrite ?dict_insert_put; cbn [fst snd outcome_map v_data with_data touch fresh_value];
  lazymatch goal with
  | G : filed_at ?d ?k |- _ -> filed_at ?d ?k => intros _; exact G
  | |- _ -> filed_at (dict_put ?k _ _) ?k => intros _; apply filed_put; cbn [v_data with_data touch fresh_value members_in_tree] in *; try (exact Logic.I); try assumption; try congruence
  | |- context [match ?x with _ => _ end] => split_match; solve_filed
  end.

Lemma wapply_filed now w d : (match w with WRestore _ => False | _ => True end) -> filed_at d (wkey w) ->
  snd (fst (wapply now w d)) <> OPanic -> filed_at (fst (fst (wapply now w d))) (wkey w).
Proof.
  intros NR G. pose proof (filed_inner d (wkey w)) as GI.
  destruct w; cbn [wapply wkey] in *; try done; cmd_unfold.
  1: { unfold dict_remove. destruct (inner d !! k) as [v|]; cbn [fst snd]; intros _ x e; unfold contents; cbn; by rewrite lookup_delete. }
  all: try (case_get; [specialize (GI v G E)|]; solve_filed; fail).
  - (* ZADD *)
    case_get; [specialize (GI v G E); pose proof GI as GI0; change (v_data (touch now v)) with (v_data v); destruct (v_data v) as [| | | |h l] eqn:D; rewrite <- ?D in GI0; try (intros _; exact (filed_put k (touch now v) d GI0))|].
    + pose proof (zadd_loop_filed nx gl incr ns (ZState h l 0) GI) as Z.
      destruct (zadd_loop _ _ _ _ _) as [z p]. destruct p; cbn [fst snd outcome_map] in *; [done|]. intros _. apply filed_put. by apply Z.
    + cbn [v_data fresh_value].
      assert (F0 : filed (z_hash (ZState ∅ [] 0)) (z_value (ZState ∅ [] 0))) by (intros i n H; cbn [z_hash] in H; by rewrite lookup_empty in H).
      pose proof (zadd_loop_filed nx gl incr ns (ZState ∅ [] 0) F0) as Z.
      destruct (zadd_loop _ _ _ _ _) as [z p]. destruct p; cbn [fst snd outcome_map] in *; [done|]. intros _. apply filed_put. by apply Z.
  - (* ZREM *) case_get; [|solve_filed]. specialize (GI v G E). pose proof GI as GI0. change (v_data (touch now v)) with (v_data v).
    destruct (v_data v) as [| | | |h l] eqn:D; rewrite <- ?D in GI0; try (intros _; exact (filed_put k (touch now v) d GI0)).
    pose proof (zrem_loop_filed ms h l GI) as Z. destruct (zrem_loop h l ms) as [[h' l'] p].
    destruct p; cbn [fst snd outcome_map] in *; [done|]. intros _. apply filed_put. by apply Z.
  - case_get; [|solve_filed]. specialize (GI v G E). pose proof GI as GI0. change (v_data (touch now v)) with (v_data v).
    destruct (v_data v) as [| | | |h l] eqn:D; rewrite <- ?D in GI0; try (intros _; exact (filed_put k (touch now v) d GI0)).
    destruct (shape_rank _ _ _) as [x y].
    match goal with |- context [zremove_nodes h l ?n] => pose proof (zremove_nodes_filed n h l GI) as Z; destruct (zremove_nodes h l n) as [[[h' l'] res] p] end.
    destruct p; cbn [fst snd outcome_map zremove_finish] in *; [done|]. intros _. apply filed_put. by apply Z.
  - case_get; [|solve_filed]. specialize (GI v G E). pose proof GI as GI0. change (v_data (touch now v)) with (v_data v).
    destruct (v_data v) as [| | | |h l] eqn:D; rewrite <- ?D in GI0; try (intros _; exact (filed_put k (touch now v) d GI0)).
    destruct (bigger_range r) as [lo hi]. destruct (bt_range lo hi l) as [it|]; [|done].
    match goal with |- context [zremove_nodes h l ?n] => pose proof (zremove_nodes_filed n h l GI) as Z; destruct (zremove_nodes h l n) as [[[h' l'] res] p] end.
    destruct p; cbn [fst snd outcome_map zremove_finish] in *; [done|]. intros _. apply filed_put. by apply Z.
  - case_get; [|solve_filed]. specialize (GI v G E). pose proof GI as GI0. change (v_data (touch now v)) with (v_data v).
    destruct (v_data v) as [| | | |h l] eqn:D; rewrite <- ?D in GI0; try (intros _; exact (filed_put k (touch now v) d GI0)).
    destruct l as [|n0 l0]; [intros _; exact (filed_put k (touch now v) d GI0)|].
    destruct (lex_range (n_score n0) r) as [lo hi]. destruct (bt_range lo hi (n0 :: l0)) as [it|]; [|done].
    match goal with |- context [zremove_nodes h ?l ?n] => pose proof (zremove_nodes_filed n h l GI) as Z; destruct (zremove_nodes h l n) as [[[h' l'] res] p] end.
    destruct p; cbn [fst snd outcome_map zremove_finish] in *; [done|]. intros _. apply filed_put. by apply Z.
Qed.

Lemma db_run_filed ho hist b :
  Forall (fun p => match snd p with CWrite (WRestore _) => False | _ => True end) hist ->
  Forall (fun r => r <> OPanic) (snd (db_run ho hist b)) ->
  (forall k x e, db_contents b k = Some (x, e) -> members_in_tree x) ->
  forall k x e, db_contents (fst (db_run ho hist b)) k = Some (x, e) -> members_in_tree x.
Proof.
  revert b; induction hist as [|[now c] h IH]; intros b H P B; [done|].
  pose proof (Forall_inv H) as Hc. pose proof (Forall_inv_tail H) as Hh. cbn [snd] in Hc. cbn [db_run] in *.
  destruct (db_cmd ho now c b) as [b1 r] eqn:E. specialize (IH b1).
  destruct (db_run ho h b1) as [b2 rs]. cbn [fst snd] in *.
  pose proof (Forall_inv P) as Pr. pose proof (Forall_inv_tail P) as Prs. cbn in Pr. apply IH; [done|done|].
  destruct (db_cmd_refines_slot ho now c b) as [F1 F2]. rewrite E in F1, F2. cbn [fst snd] in F1, F2.
  intros k x e. destruct (decide (k = ckey c)) as [->|K].
  - rewrite F1. subst r. destruct c as [w|rd]; cbn [flat_cmd ckey] in *.
    + apply wapply_filed; [done| |done]. intros x' e'. exact (B (wkey w) x' e').
    + pose proof (db_read_contents ho now rd b (rkey rd)) as Q. unfold db_contents in F1.
      rewrite <- F1. change (db_cmd ho now (CRead rd) b) with (db_read ho now rd b) in E. rewrite E in Q. cbn [fst] in Q.
      fold (db_contents b1 (rkey rd)). rewrite Q. apply B.
  - pose proof (db_cmd_other ho now c b k K) as Q. rewrite E in Q. cbn [fst] in Q. rewrite db_raw_contents, Q, <- db_raw_contents. apply B.
Qed.

(** As long as no request panicked and none was RESTORE, every member that the hash knows is listed by the tree
    (with ZADD INCR possibly several times, and with another score than the hash has: C31_zadd_incr_ghost_refuted). *)
Theorem C31_members_listed (ho : horder) (hist : list (N * cmd)) (k : bytes) (h : gmap bytes node) (l : list node) (e : N) :
  Forall (fun p => match snd p with CWrite (WRestore _) => False | _ => True end) hist ->
  Forall (fun r => r <> OPanic) (snd (db_run ho hist db_empty)) ->
  db_contents (fst (db_run ho hist db_empty)) k = Some (DZSet h l, e) ->
  forall m n, h !! m = Some n -> n_key n = m /\ exists s, Node s m ∈ l.
Proof. intros H P C. exact (db_run_filed ho hist db_empty H P ltac:(done) k (DZSet h l) e C). Qed.
Print Assumptions C31_members_listed.
Example C31_members_listed_case :
  let hist := [(1%N, CWrite (WZAdd (bs "z") [Node (f64_of_Z 1) (bs "a"); Node (f64_of_Z 2) (bs "b")] NxXx_None GtLt_None false));
     (2%N, CWrite (WZAdd (bs "z") [Node (f64_of_Z 2) (bs "a")] NxXx_None GtLt_None true));
     (3%N, CWrite (WZAdd (bs "z") [Node (f64_of_Z 5) (bs "a")] NxXx_None GtLt_None true))] in
  snd (db_run horder_default hist db_empty) =
    [OOk (PZadd (ZaddResp 0 2 2)); OOk (PZadd (ZaddResp 2 2 1)); OOk (PZadd (ZaddResp 2 2 1))] /\
  Forall (fun p => match snd p with CWrite (WRestore _) => False | _ => True end) hist.
Proof. split; [vm_compute; reflexivity|]. each_ok. Qed.
(** A panic leaves a member behind that no listing shows. *)
Theorem C31_panic_leaves_unlisted_refuted :
  let hist := [(1%N, CWrite (WZAdd (bs "z") [Node (f64_of_Z 1) (bs "a")] NxXx_None GtLt_None false));
     (2%N, CWrite (WZAdd (bs "z") [Node S754_nan (bs "q")] NxXx_None GtLt_None false))] in
  snd (db_run horder_default (hist ++ [(3%N, CRead (RZRank (bs "z") (bs "q") false)); (4%N, CRead (RZRangeRank (bs "z") 0 (-1) None false));
       (5%N, CWrite (WZRemove (bs "z") [bs "q"]))]) db_empty) =
    [OOk (PZadd (ZaddResp 0 1 1)); OPanic; OOk (POptNat None); OOk (PNodes [Node (f64_of_Z 1) (bs "a")]); OPanic].
Proof. vm_compute. reflexivity. Qed.
Print Assumptions C31_panic_leaves_unlisted_refuted.
