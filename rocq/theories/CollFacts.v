(** Proofs about lists, hashes and sets: every history on one key is a run of the abstract object. *)
From Verif Require Export SpecColl DbFacts.

Local Arguments dict_put : simpl never.

(** ** Histories on one key *)
Section object_inv.
  Context (S op : Type) (step : op -> option S -> option S * outcome resp) (enc : S -> data) (k : bytes)
          (opcmd : op -> cmd) (ho : horder) (I : option S -> Prop) (P : op -> Prop).
  Hypothesis sim : forall now o d e s,
    P o -> I s -> lives now e -> (s = None -> e = 0%N) -> contents d k = stored enc e s ->
    contents (fst (flat_cmd ho now (opcmd o) d)) k = stored enc e (fst (step o s)) /\
    snd (flat_cmd ho now (opcmd o) d) = snd (step o s) /\
    (fst (step o s) = None -> e = 0%N) /\ I (fst (step o s)).

  Lemma object_run_inv h ops b e s :
    Forall P ops -> I s ->
    map snd (on_key k h) = map opcmd ops ->
    Forall (fun p => lives (fst p) e) (on_key k h) ->
    (s = None -> e = 0%N) ->
    db_contents b k = stored enc e s ->
    db_contents (fst (db_run ho h b)) k = stored enc e (fst (run_ops step ops s)) /\
    replies_on k h (snd (db_run ho h b)) = snd (run_ops step ops s) /\ I (fst (run_ops step ops s)).
  Proof.
    revert ops b s; induction h as [|[now c] h IH]; intros ops b s Ps Is O L N C.
    - destruct ops; [|done]. done.
    - cbn [on_key snd] in O, L. cbn [db_run replies_on].
      destruct (db_cmd ho now c b) as [b1 r] eqn:E.
      assert (B1 : b1 = fst (db_cmd ho now c b)) by (by rewrite E).
      assert (R1 : r = snd (db_cmd ho now c b)) by (by rewrite E).
      destruct (decide (ckey c = k)) as [K|K].
      + destruct ops as [|o ops]; [done|]. cbn [map snd] in O. injection O as Oc O.
        inversion L as [|? ? L1 L2]; subst l x. cbn [fst] in L1.
        (* the slot of the key as a flat dictionary *)
        destruct (db_cmd_refines_slot ho now c b) as [F1 F2].
        set (d := match c with CWrite _ => snd (next_id (b (get_slot (ckey c)))) | CRead _ => b (get_slot (ckey c)) end) in *.
        assert (Cd : contents d k = stored enc e s).
        { rewrite <- C. unfold d, db_contents. rewrite K. destruct c; done. }
        pose proof (Forall_inv Ps) as Po. pose proof (Forall_inv_tail Ps) as Ps'.
        destruct (sim now o d e s Po Is L1 N Cd) as (S1 & S2 & S3 & S4).
        rewrite <- Oc in S1, S2. cbn [run_ops].
        destruct (step o s) as [s1 r1]. cbn [fst snd] in *.
        assert (C1 : db_contents b1 k = stored enc e s1).
        { rewrite <- S1. rewrite B1. rewrite <- K. exact F1. }
        specialize (IH ops b1 s1 Ps' S4 O L2 S3 C1).
        destruct (db_run ho h b1) as [b2 rs]. destruct (run_ops step ops s1) as [s2 rs']. cbn [fst snd] in *.
        destruct IH as (-> & I2 & I3). cbn [snd]. rewrite decide_True by done.
        (split; [done|]). (split; [|done]). rewrite I2. f_equal. congruence.
      + assert (C1 : db_contents b1 k = stored enc e s).
        { rewrite B1, db_raw_contents, db_cmd_other by congruence. done. }
        specialize (IH ops b1 s Ps Is O L N C1).
        destruct (db_run ho h b1) as [b2 rs]. cbn [fst snd] in *. by rewrite decide_False.
  Qed.
End object_inv.

Section object.
  Context (S op : Type) (step : op -> option S -> option S * outcome resp) (enc : S -> data) (k : bytes)
          (opcmd : op -> cmd) (ho : horder).
  Hypothesis sim : forall now o d e s,
    lives now e -> (s = None -> e = 0%N) -> contents d k = stored enc e s ->
    contents (fst (flat_cmd ho now (opcmd o) d)) k = stored enc e (fst (step o s)) /\
    snd (flat_cmd ho now (opcmd o) d) = snd (step o s) /\
    (fst (step o s) = None -> e = 0%N).

  Lemma object_run h ops b e s :
    map snd (on_key k h) = map opcmd ops ->
    Forall (fun p => lives (fst p) e) (on_key k h) ->
    (s = None -> e = 0%N) ->
    db_contents b k = stored enc e s ->
    db_contents (fst (db_run ho h b)) k = stored enc e (fst (run_ops step ops s)) /\
    replies_on k h (snd (db_run ho h b)) = snd (run_ops step ops s).
  Proof.
    intros O L N C.
    destruct (object_run_inv S op step enc k opcmd ho (fun _ => True) (fun _ => True)) with
      (h := h) (ops := ops) (b := b) (e := e) (s := s) as (A & B & _); try done.
    - clear -sim. intros now o d e s _ _ L N C. destruct (sim now o d e s L N C) as (? & ? & ?). done.
    - by apply Forall_true.
  Qed.
End object.

(** ** Counting with [N] *)
Lemma take_N_nat {A} (n : N) (l : list A) : take_N n l = firstn (N.to_nat n) l.
Proof.
  revert n; induction l as [|x l IH]; intros n; cbn; [by rewrite firstn_nil|].
  destruct (N.eqb_spec n 0) as [->|H]; [done|].
  rewrite IH. replace (N.to_nat n) with (S (N.to_nat (n - 1))) by lia. done.
Qed.
Lemma drop_N_nat {A} (n : N) (l : list A) : drop_N n l = skipn (N.to_nat n) l.
Proof.
  revert n; induction l as [|x l IH]; intros n; cbn; [by rewrite skipn_nil|].
  destruct (N.eqb_spec n 0) as [->|H]; [done|].
  rewrite IH. replace (N.to_nat n) with (S (N.to_nat (n - 1))) by lia. done.
Qed.

(** ** Slices *)
Lemma positions_above {A} (lo hi i : Z) (l : list A) :
  (hi < i)%Z -> List.filter (fun p => (lo <=? fst p)%Z && (fst p <=? hi)%Z) (positions i l) = [].
Proof.
  revert i; induction l as [|x l IH]; intros i H; [done|]. cbn.
  replace ((lo <=? i)%Z && (i <=? hi)%Z) with false by lia. apply IH. lia.
Qed.

Lemma positions_interval {A} (lo hi i : Z) (l : list A) :
  map snd (List.filter (fun p => (lo <=? fst p)%Z && (fst p <=? hi)%Z) (positions i l)) =
  firstn (Z.to_nat (hi - Z.max lo i + 1)) (skipn (Z.to_nat (lo - i)) l).
Proof.
  revert i; induction l as [|x l IH]; intros i; [cbn; by rewrite skipn_nil, firstn_nil|]. cbn [positions List.filter fst].
  destruct (decide (lo <= i)%Z) as [L|L].
  - replace (Z.to_nat (lo - i)) with 0%nat by lia. cbn [skipn].
    destruct (decide (i <= hi)%Z) as [H|H].
    + replace ((lo <=? i)%Z && (i <=? hi)%Z) with true by lia. cbn [map snd]. rewrite IH.
      replace (Z.to_nat (lo - (i + 1))) with 0%nat by lia. cbn [skipn].
      replace (Z.to_nat (hi - Z.max lo i + 1)) with (S (Z.to_nat (hi - Z.max lo (i + 1) + 1))) by lia. done.
    + replace ((lo <=? i)%Z && (i <=? hi)%Z) with false by lia.
      rewrite positions_above by lia. replace (Z.to_nat (hi - Z.max lo i + 1)) with 0%nat by lia. done.
  - replace ((lo <=? i)%Z && (i <=? hi)%Z) with false by lia. rewrite IH.
    replace (Z.to_nat (lo - i)) with (S (Z.to_nat (lo - (i + 1)))) by lia. cbn [skipn].
    do 2 f_equal. lia.
Qed.

Lemma shape_interval (a b : Z) (n : nat) :
  let '(s, e) := shape_rank a b n in
  let a' := from_end n a in let b' := from_end n b in
  (N.to_nat (e - s) = 0%nat /\ (b' < Z.max a' 0 \/ Z.of_nat n <= a')%Z) \/
  (N.to_nat s = Z.to_nat a' /\
   (N.to_nat (e - s) = Z.to_nat (b' - Z.max a' 0 + 1) \/
    ((Z.of_nat n <= b')%Z /\ (n <= N.to_nat (e - s) + Z.to_nat a')%nat))).
Proof.
  unfold shape_rank, from_end.
  replace (if (b <? 0)%Z then (Z.of_nat n + b)%Z else b) with (if (b <? 0)%Z then (b + Z.of_nat n)%Z else b) by (destruct (b <? 0)%Z; lia).
  replace (if (a <? 0)%Z then (Z.of_nat n + a)%Z else a) with (if (a <? 0)%Z then (a + Z.of_nat n)%Z else a) by (destruct (a <? 0)%Z; lia).
  set (a' := if (a <? 0)%Z then (a + _)%Z else _). set (b' := if (b <? 0)%Z then (b + _)%Z else _). clearbody a' b'.
  destruct ((Z.of_nat n <=? a')%Z || (b' <? 0)%Z || (b' <? a')%Z) eqn:E.
  - left. split; [done|]. lia.
  - right. destruct (a' <? 0)%Z eqn:E1, (Z.of_nat n <=? b')%Z eqn:E2; split; lia.
Qed.

Lemma slice_shape {A} (a b : Z) (l : list A) :
  let '(s, e) := shape_rank a b (length l) in take_N (e - s) (drop_N s l) = slice a b l.
Proof.
  unfold slice. rewrite positions_interval.
  pose proof (shape_interval a b (length l)) as H. destruct (shape_rank a b (length l)) as [s e].
  cbv zeta in H. rewrite take_N_nat, drop_N_nat.
  set (a' := from_end (length l) a) in *. set (b' := from_end (length l) b) in *. clearbody a' b'.
  destruct H as [[-> H]|[-> H]].
  - rewrite firstn_O. destruct (decide (b' < Z.max a' 0)%Z) as [L|L].
    + replace (Z.to_nat (b' - Z.max a' 0 + 1)) with 0%nat by lia. done.
    + rewrite skipn_all2 by lia. by rewrite firstn_nil.
  - rewrite Z.sub_0_r. destruct H as [->|[H1 H2]]; [done|].
    rewrite !firstn_all2; [done| |]; rewrite skipn_length; lia.
Qed.

(** ** Lists *)
Lemma push_all_pushed left es l : deque_push_all left es l = pushed left es l.
Proof.
  unfold deque_push_all, pushed. destruct left.
  - revert l; induction es as [|e es IH]; intros l; [done|]. cbn [fold_left rev]. rewrite IH. by rewrite <- app_assoc.
  - revert l; induction es as [|e es IH]; intros l; cbn [fold_left]; [by rewrite app_nil_r|].
    rewrite IH. by rewrite <- app_assoc.
Qed.
Lemma pushed_length {A} left (es l : list A) : length (pushed left es l) = (length l + length es)%nat.
Proof. unfold pushed. destruct left; rewrite app_length, ?rev_length; lia. Qed.

Lemma view_stored {S} (enc : S -> data) t d k e s :
  lives t e -> contents d k = stored enc e s -> view t d k = stored enc e s.
Proof. intros L C. unfold view. rewrite C. destruct s; cbn; [|done]. by rewrite decide_True. Qed.

Lemma list_sim k ho now o d e s :
  lives now e -> (s = None -> e = 0%N) -> contents d k = stored DDeque e s ->
  contents (fst (flat_cmd ho now (list_cmd k o) d)) k = stored DDeque e (fst (list_step o s)) /\
  snd (flat_cmd ho now (list_cmd k o) d) = snd (list_step o s) /\
  (fst (list_step o s) = None -> e = 0%N).
Proof.
  intros L N C. pose proof (view_stored _ _ _ _ _ _ L C) as Vs.
  assert (G : match s with
    | Some l => exists v d1, dict_get now k d = (d1, Some v) /\ v_data v = DDeque l /\ v_exp v = e /\
                contents d1 k = Some (DDeque l, e)
    | None => dict_get now k d = (d, None)
    end).
  { destruct (dict_get_case now k d) as [v E A V|V]; rewrite Vs in V; destruct s as [l|]; cbn in V; try discriminate V; [|done].
    injection V as V1 V2. exists (touch now v), (dict_put k (touch now v) d). cbn. rewrite contents_put. cbn.
    rewrite V1, V2. repeat split; done. }
  destruct o as [lf es|lf es|lf n| |a b]; cbn [list_cmd flat_cmd wapply rapply list_step]; cmd_unfold;
    destruct s as [l|]; try (destruct G as (v & d1 & -> & D & X & C1); rewrite ?D); try (rewrite G; specialize (N eq_refl); subst e);
    cbn [fst snd outcome_map default]; rewrite ?push_all_pushed, ?dict_insert_put, ?pushed_length; cbn [fst snd].
  - rewrite contents_put. subst e. done.
  - rewrite contents_put. done.
  - rewrite contents_put. subst e. done.
  - rewrite C. done.
  - set (c := N.min n (N.of_nat (length l))).
    destruct lf; cbn [fst snd outcome_map]; rewrite contents_put; unfold content; cbn [with_data v_data v_exp]; rewrite X;
      rewrite take_N_nat, drop_N_nat; (split; [|split; [|done]]); try done.
    + unfold unpopped, stored. cbn [fst fmap option_fmap option_map]. rewrite skipn_rev, rev_involutive.
      repeat f_equal. lia.
    + unfold popped. rewrite firstn_rev. repeat f_equal. lia.
  - rewrite C. done.
  - rewrite C1. done.
  - rewrite C. done.
  - pose proof (slice_shape a b l) as Sh. destruct (shape_rank a b (length l)) as [x y]. cbn [fst snd outcome_map].
    rewrite C1, Sh. done.
  - rewrite C. done.
Qed.

(** ** Looking up a stored object *)
Lemma get_stored {S} (enc : S -> data) now k d e s :
  lives now e -> contents d k = stored enc e s ->
  match s with
  | Some x => exists v d1, dict_get now k d = (d1, Some v) /\ v_data v = enc x /\ v_exp v = e /\
              contents d1 k = Some (enc x, e)
  | None => dict_get now k d = (d, None)
  end.
Proof.
  intros L C. pose proof (view_stored _ _ _ _ _ _ L C) as Vs.
  destruct (dict_get_case now k d) as [v E A V|V]; rewrite Vs in V; destruct s as [l|]; cbn in V; try discriminate V; [|done].
  injection V as V1 V2. exists (touch now v), (dict_put k (touch now v) d). cbn. rewrite contents_put. cbn.
  rewrite V1, V2. repeat split; done.
Qed.

Lemma goi_stored {S} (enc : S -> data) (x0 : S) now k d e s :
  lives now e -> (s = None -> e = 0%N) -> contents d k = stored enc e s ->
  exists v d1, get_or_insert_with now k (fresh_value now (enc x0)) d = (d1, v) /\
    v_data v = enc (default x0 s) /\ v_exp v = e /\ contents d1 k = Some (enc (default x0 s), e).
Proof.
  intros L N C. pose proof (view_stored _ _ _ _ _ _ L C) as Vs.
  destruct (goi_cases now k (fresh_value now (enc x0)) d) as [v E A V|V]; rewrite Vs in V; destruct s as [l|]; cbn in V; try discriminate V.
  - injection V as V1 V2. do 2 eexists. split; [reflexivity|]. cbn. rewrite contents_put. cbn.
    rewrite V1, V2. repeat split; done.
  - do 2 eexists. split; [reflexivity|]. rewrite contents_put. rewrite N by done. done.
Qed.

(** ** Hashes *)
Lemma kvp_set_all es m : fold_left (kvp_set_entry NxXx_None) es m = bindings es ∪ m.
Proof.
  unfold bindings. induction es as [|[f x] es IH] using rev_ind; [cbn; by rewrite map_empty_union|].
  rewrite fold_left_app. cbn [fold_left kvp_set_entry]. rewrite IH, rev_app_distr. cbn.
  by rewrite insert_union_l.
Qed.
Lemma dom_bindings es : dom (bindings es) = named es.
Proof.
  unfold bindings, named. induction es as [|[f x] es IH] using rev_ind; [cbn; set_solver|].
  rewrite rev_app_distr. cbn. rewrite dom_insert_L, IH, map_app, list_to_set_app_L. cbn. set_solver.
Qed.
Lemma size_bindings es m : size (bindings es ∪ m) = (size m + size (named es ∖ dom m))%nat.
Proof.
  rewrite <- !size_dom, dom_union_L, dom_bindings.
  assert (E : named es ∪ dom m = dom m ∪ (named es ∖ dom m)).
  { apply set_eq. intros f. rewrite !elem_of_union, elem_of_difference. destruct (decide (f ∈ dom m)); tauto. }
  rewrite E, size_union by set_solver. done.
Qed.
Lemma kvp_del_all (fs : list bytes) (m : gmap bytes scalar) : fold_left (fun m f => delete f m) fs m = filter (fun p => p.1 ∉ fs) m.
Proof.
  apply map_eq. intros f.
  assert (H : fold_left (fun m f => delete f m) fs m !! f = if decide (f ∈ fs) then None else m !! f).
  { revert m; induction fs as [|g fs IH]; intros m; cbn [fold_left].
    - destruct (decide (f ∈ [])) as [F|]; [|done]. by apply elem_of_nil in F.
    - rewrite IH. destruct (decide (f ∈ fs)) as [F|F].
      + rewrite decide_True; [done|]. by apply elem_of_cons; right.
      + destruct (decide (f = g)) as [->|G].
        * rewrite lookup_delete, decide_True; [done|]. apply elem_of_cons; by left.
        * rewrite lookup_delete_ne by congruence. rewrite decide_False; [done|].
          intros [|]%elem_of_cons; done. }
  rewrite H. symmetry. destruct (decide (f ∈ fs)) as [F|F].
  - apply map_filter_lookup_None. right. intros x _ N. by apply N.
  - destruct (m !! f) as [x|] eqn:E.
    + by apply map_filter_lookup_Some.
    + apply map_filter_lookup_None. by left.
Qed.
Lemma size_del (fs : list bytes) (m : gmap bytes scalar) :
  size (filter (fun p => p.1 ∉ fs) m) = (size m - size (list_to_set fs ∩ dom m : gset bytes))%nat.
Proof.
  assert (E : dom (filter (fun p : bytes * scalar => p.1 ∉ fs) m) = dom m ∖ (list_to_set fs ∩ dom m)).
  { apply set_eq. intros f. rewrite elem_of_difference, elem_of_intersection, elem_of_list_to_set, !elem_of_dom.
    split.
    - intros [x H]. apply map_filter_lookup_Some in H as [H1 H2]. split; [by exists x|]. intros [F _]. by apply H2.
    - intros [[x H] N]. exists x. apply map_filter_lookup_Some. split; [done|]. intros F. apply N. eauto. }
  rewrite <- size_dom, E, size_difference by set_solver. by rewrite size_dom.
Qed.

Definition read_int (x : scalar) : Z + err :=
  match scalar_as_i64 x with OOk z => inl z | OErr e => inr e | OPanic => inr EWrongType end.
Lemma scalar_no_panic x : scalar_as_i64 x <> OPanic.
Proof. destruct x; cbn; try done; by destruct (atoi_i64 _). Qed.
Lemma read_int_ok : reads_integers read_int.
Proof.
  split; [|split].
  - intros x z H. unfold read_int. pose proof (stands_for_i64 _ _ H) as E. cbn in E. by rewrite E.
  - intros t H. unfold read_int. cbn. by rewrite (atoi_none_prefix t H).
  - intros [] H; try done.
Qed.

Lemma hash_sim k ho now o d e s :
  lives now e -> (s = None -> e = 0%N) -> contents d k = stored DKvp e s ->
  contents (fst (flat_cmd ho now (hash_cmd k o) d)) k = stored DKvp e (fst (hash_step read_int o s)) /\
  snd (flat_cmd ho now (hash_cmd k o) d) = snd (hash_step read_int o s) /\
  (fst (hash_step read_int o s) = None -> e = 0%N).
Proof.
  intros L N C. pose proof (get_stored _ _ _ _ _ _ L C) as G.
  destruct (goi_stored _ ∅ _ _ _ _ _ L N C) as (w & d2 & GI & DI & XI & CI).
  destruct o as [es|f x|fs|f n|fs| |f]; cbn [hash_cmd flat_cmd wapply rapply hash_step]; cmd_unfold;
    rewrite ?GI, ?DI.
  - cbn [fst snd outcome_map]. rewrite contents_put. unfold content. cbn [with_data v_data v_exp].
    rewrite XI, kvp_set_all, size_bindings. done.
  - cbn [fst snd outcome_map fold_left kvp_set_entry]. rewrite contents_put. unfold content. cbn [with_data v_data v_exp].
    rewrite XI. destruct (default ∅ s !! f) as [y|] eqn:E.
    + destruct s as [m|]; [|cbn [default] in E; by rewrite lookup_empty in E]. done.
    + rewrite map_size_insert_None by done. cbn [fst snd]. replace (size (default ∅ s) + 1)%nat with (S (size (default ∅ s))) by lia. done.
  - destruct s as [m|].
    + destruct G as (v & d1 & -> & D & X & C1). rewrite D. cbn [fst snd outcome_map default]. rewrite contents_put. subst e.
      rewrite kvp_del_all, size_del. done.
    + rewrite G. cbn [fst snd outcome_map default]. rewrite C. split; [done|]. split; [|done].
      by rewrite dom_empty_L, intersection_empty_r_L, size_empty.
  - destruct (default ∅ s !! f) as [x|] eqn:E.
    + destruct s as [m|]; [|cbn [default] in E; by rewrite lookup_empty in E]. cbn [default] in *.
      unfold read_int. pose proof (scalar_no_panic x) as P. destruct (scalar_as_i64 x); [| |done]; cbn [fst snd outcome_map].
      * rewrite contents_put. unfold content. cbn [with_data v_data v_exp]. rewrite XI. done.
      * rewrite CI. done.
    + cbn [fst snd outcome_map]. rewrite contents_put. unfold content. cbn [with_data v_data v_exp]. rewrite XI. done.
  - destruct s as [m|].
    + destruct G as (v & d1 & -> & D & X & C1). rewrite D. cbn [fst snd outcome_map default]. done.
    + rewrite G. cbn [fst snd outcome_map default]. rewrite C. split; [done|]. split; [|done].
      do 2 f_equal. clear. induction fs as [|f fs IH]; [done|]. cbn [map length repeat]. by rewrite IH, lookup_empty.
  - destruct s as [m|].
    + destruct G as (v & d1 & -> & D & X & C1). rewrite D. done.
    + rewrite G. done.
  - destruct s as [m|].
    + destruct G as (v & d1 & -> & D & X & C1). rewrite D. cbn [fst snd outcome_map default].
      split; [done|]. split; [|done]. do 2 f_equal. destruct (m !! f) eqn:E; symmetry.
      * apply bool_decide_eq_true. apply elem_of_dom. eauto.
      * apply bool_decide_eq_false. by apply not_elem_of_dom.
    + rewrite G. done.
Qed.

(** ** Sets *)
Lemma set_add_all (ms : list bytes) (s : gset bytes) : fold_left (fun s m => {[ m ]} ∪ s) ms s = s ∪ list_to_set ms.
Proof. revert s; induction ms as [|m ms IH]; intros s; cbn; [set_solver|]. rewrite IH. set_solver. Qed.
Lemma set_rem_all (ms : list bytes) (s : gset bytes) : fold_left (fun s m => s ∖ {[ m ]}) ms s = s ∖ list_to_set ms.
Proof. revert s; induction ms as [|m ms IH]; intros s; cbn; [set_solver|]. rewrite IH. set_solver. Qed.

Lemma set_sim k ho now o d e s :
  lives now e -> (s = None -> e = 0%N) -> contents d k = stored DSet e s ->
  contents (fst (flat_cmd ho now (set_cmd k o) d)) k = stored DSet e (fst (set_step o s)) /\
  snd (flat_cmd ho now (set_cmd k o) d) = snd (set_step o s) /\
  (fst (set_step o s) = None -> e = 0%N).
Proof.
  intros L N C. pose proof (get_stored _ _ _ _ _ _ L C) as G.
  destruct (goi_stored _ ∅ _ _ _ _ _ L N C) as (w & d2 & GI & DI & XI & CI).
  destruct o as [ms|ms|ms|]; cbn [set_cmd flat_cmd wapply rapply set_step]; cmd_unfold; rewrite ?GI, ?DI.
  - cbn [fst snd outcome_map]. rewrite contents_put. unfold content. cbn [with_data v_data v_exp].
    rewrite XI, set_add_all. done.
  - destruct s as [m|].
    + destruct G as (v & d1 & -> & D & X & C1). rewrite D. cbn [fst snd outcome_map default]. rewrite contents_put. subst e.
      rewrite set_rem_all. done.
    + rewrite G. done.
  - destruct s as [m|].
    + destruct G as (v & d1 & -> & D & X & C1). rewrite D. done.
    + rewrite G. cbn [fst snd outcome_map default]. rewrite C. split; [done|]. split; [|done].
      do 2 f_equal. clear. induction ms as [|f fs IH]; [done|]. cbn [map length repeat]. rewrite IH. f_equal.
  - destruct s as [m|].
    + destruct G as (v & d1 & -> & D & X & C1). rewrite D. done.
    + rewrite G. done.
Qed.

Lemma list_cmd_key k o : ckey (list_cmd k o) = k. Proof. by destruct o. Qed.
Lemma hash_cmd_key k o : ckey (hash_cmd k o) = k. Proof. by destruct o. Qed.
Lemma set_cmd_key k o : ckey (set_cmd k o) = k. Proof. by destruct o. Qed.

(** ** Queues *)
Lemma queue_run ops s s' rs :
  Forall queue_op ops -> run_ops list_step ops s = (s', rs) ->
  all_popped rs ++ default [] s' = default [] s ++ all_pushed ops.
Proof.
  intros Q. revert s s' rs; induction Q as [|o ops Qo _ IH]; intros s s' rs H; cbn [run_ops] in H.
  { injection H as <- <-. cbn. by rewrite app_nil_r. }
  destruct (list_step o s) as [s1 r] eqn:E. destruct (run_ops list_step ops s1) as [s2 rs2] eqn:E2.
  injection H as <- <-. specialize (IH _ _ _ E2).
  unfold all_popped, all_pushed in *. cbn [map concat]. rewrite <- app_assoc, IH.
  destruct o as [[] es|[] es|[] n| |a b]; try done; cbn [list_step] in E.
  - injection E as <- <-. cbn. unfold pushed. by rewrite app_assoc.
  - destruct s as [l|]; injection E as <- <-; cbn; [|done].
    unfold unpopped. rewrite app_assoc. f_equal. apply firstn_skipn.
Qed.

(** ** Empty collections *)
Lemma empty_reads ho now r d x e :
  contents d (rkey r) = Some (x, e) -> lives now e -> empty_collection x -> rkind r = Some (kind_of x) ->
  snd (rapply ho now r d) = snd (rapply ho now r (without (rkey r) d)).
Proof.
  intros C L X K.
  assert (C' : contents d (rkey r) = stored (fun _ : unit => x) e (Some ())) by (by rewrite C).
  pose proof (get_stored _ _ _ _ _ _ L C') as G. destruct G as (v & d1 & G & D & _ & _).
  pose proof (dict_get_none _ _ _ (view_without now (rkey r) d)) as W.
  set (d0 := without (rkey r) d) in *. clearbody d0.
  destruct X as [->|[->|[->| ->]]]; destruct r; cbn [rkind kind_of rkey rapply] in *; try discriminate K; cmd_unfold;
    rewrite G, W, ?D; cbn [fst snd outcome_map].
  - do 2 f_equal. clear. induction fs as [|f fs IH]; [done|]. cbn [map length repeat]. by rewrite IH, lookup_empty.
  - done.
  - by rewrite lookup_empty.
  - done.
  - pose proof (slice_shape start stop (@nil scalar)) as Sh. destruct (shape_rank start stop (length [])) as [a b].
    cbn [fst snd outcome_map]. by rewrite Sh.
  - do 2 f_equal. clear. induction fs as [|f fs IH]; [done|]. cbn [map length repeat]. by rewrite IH.
  - done.
  - by rewrite lookup_empty.
  - destruct (shape_limit lim (length [])) as [o c], (shape_rank start stop (length [])) as [a b].
    destruct rv; done.
  - destruct (bigger_range r) as [lo hi]. destruct (shape_limit lim (length [])) as [o c]. cbn [bt_range fst snd outcome_map].
    destruct rv; done.
  - done.
Qed.
