(** Lemmas about replication of one slot. *)
From Verif Require Export SpecReplica ExpireFacts DbFacts.

Local Arguments dict_put : simpl never.

(** ** A command that two clocks agree about *)
Lemma view_both t t' d d' k : view t d k = view t' d' k ->
  (exists x e l l', inner d !! k = Some (Value x e l) /\ inner d' !! k = Some (Value x e l') /\
     alive t (Value x e l) = true /\ alive t' (Value x e l') = true) \/
  (view t d k = None /\ view t' d' k = None).
Proof.
  intros H. destruct (view_cases t d k) as [(v & E & A & V)|V]; [|right; by rewrite <- H, V].
  left. rewrite V in H.
  destruct (view_cases t' d' k) as [(v' & E' & A' & V')|V']; [|by rewrite V' in H].
  rewrite V' in H. injection H as Hx He. destruct v as [x e l], v' as [x' e' l']. cbn in *. subst x' e'.
  by exists x, e, l, l'.
Qed.

Lemma dict_get_hit now k d v : inner d !! k = Some v -> alive now v = true ->
  dict_get now k d = (dict_put k (touch now v) d, Some (touch now v)).
Proof. intros E A. unfold dict_get. by rewrite E, A. Qed.
Lemma goi_hit_eq now k f d v : inner d !! k = Some v -> alive now v = true ->
  get_or_insert_with now k f d = (dict_put k (touch now v) d, touch now v).
Proof.
  intros E A. unfold get_or_insert_with. rewrite E.
  replace ((0 <? v_exp v)%N && (v_exp v <=? now)%N) with false; [done|].
  symmetry. unfold alive in A. lia.
Qed.

Definition skewed (k : bytes) (d d' : dict) (a b : dict * outcome resp * exp_status) : Prop :=
  contents (fst (fst a)) k = contents (fst (fst b)) k \/
  (contents (fst (fst a)) k = contents d k /\ contents (fst (fst b)) k = contents d' k).

Ltac solve_skew :=
  rewrite ?dict_insert_put; cbn [fst snd];
  lazymatch goal with
  | |- context [match ?x with _ => _ end] => split_match; solve_skew
  | |- skewed _ _ _ _ _ =>
      first [ right; split; reflexivity
            | left; cbn [fst snd]; rewrite ?put_put, ?contents_put; reflexivity ]
  end.

Lemma wapply_skew t t' w d d' :
  is_restore w = false -> view t d (wkey w) = view t' d' (wkey w) ->
  skewed (wkey w) d d' (wapply t w d) (wapply t' w d').
Proof.
  intros P H. destruct (view_both _ _ _ _ _ H) as [(x & e & l & l' & E & E' & A & A')|[V V']]; clear H.
  - destruct w; cbn [wapply wkey is_restore] in *; try discriminate; cmd_unfold.
    1: { left. unfold dict_remove. rewrite E, E'. cbn [fst]. unfold contents. cbn. by rewrite !lookup_delete. }
    all: rewrite ?(dict_get_hit _ _ _ _ E A), ?(dict_get_hit _ _ _ _ E' A'),
      ?(goi_hit_eq _ _ _ _ _ E A), ?(goi_hit_eq _ _ _ _ _ E' A').
    all: try (destruct nx, ea; rewrite ?(dict_get_hit _ _ _ _ E A), ?(dict_get_hit _ _ _ _ E' A')).
    all: cbn [v_data v_exp touch with_data].
    all: solve_skew.
  - destruct w; cbn [wapply wkey is_restore] in *; try discriminate; cmd_unfold.
    1: { left. unfold dict_remove. cbn [fst]. unfold contents.
         destruct (inner d !! k), (inner d' !! k); cbn; by rewrite !lookup_delete. }
    all: rewrite ?(dict_get_none _ _ _ V), ?(dict_get_none _ _ _ V'), ?(goi_none _ _ _ _ V), ?(goi_none _ _ _ _ V').
    all: try (destruct nx, ea; rewrite ?(dict_get_none _ _ _ V), ?(dict_get_none _ _ _ V')).
    all: cbn [v_data v_exp fresh_value with_data].
    all: solve_skew.
Qed.

(** ** Deadlines come from commands *)
Ltac solve_dl E :=
  rewrite ?dict_insert_put; cbn [fst snd];
  lazymatch goal with
  | |- context [match ?x with _ => _ end] => split_match; solve_dl E
  | |- _ =>
      rewrite ?put_put, ?contents_put; cbn [content with_data touch fresh_value v_data v_exp];
      intros Q;
      first [ right; left; eexists; exact Q
            | injection Q as Q1 Q2; subst;
              first [ left; reflexivity | right; right; reflexivity
                    | right; left; eexists; unfold contents; rewrite E; reflexivity ] ]
  end.

Lemma wapply_deadline t w d x e :
  is_restore w = false -> contents (fst (fst (wapply t w d))) (wkey w) = Some (x, e) ->
  e = 0%N \/ (exists y, contents d (wkey w) = Some (y, e)) \/ names_deadline w e.
Proof.
  intros P. destruct w; cbn [wapply wkey is_restore names_deadline] in *; try discriminate; cmd_unfold.
  1: { unfold dict_remove, contents. destruct (inner d !! k); cbn; by rewrite lookup_delete. }
  3: { destruct nx, ea as [e'|]; rewrite ?dict_insert_put; cbn [fst snd].
       1: solve_dl I.
       all: case_get; match goal with H : inner _ !! _ = Some _ |- _ => solve_dl H | _ => solve_dl I end. }
  all: case_get; match goal with H : inner _ !! _ = Some _ |- _ => solve_dl H | _ => solve_dl I end.
Qed.

(** ** Two histories with the same writes *)
Definition known (D : N -> Prop) (d : dict) : Prop := forall k x e, contents d k = Some (x, e) -> e = 0%N \/ D e.
Definition agree (D : N -> Prop) (t t' : N) (d d' : dict) : Prop :=
  write_id d = write_id d' /\ known D d /\ known D d' /\
  forall T T', (t <= T)%N -> (t' <= T')%N -> same_side D T T' -> forall k, view T d k = view T' d' k.

Lemma known_same D d d' : (forall k, contents d' k = contents d k) -> known D d -> known D d'.
Proof. intros S K k x e. rewrite S. apply K. Qed.

Lemma view_of_contents t d d' k : contents d' k = contents d k -> view t d' k = view t d k.
Proof. intros H. unfold view. by rewrite H. Qed.

Lemma agree_quiet_l D t t' u d d' d1 : (t <= u)%N -> same_contents d d1 -> agree D t t' d d' -> agree D u t' d1 d'.
Proof.
  intros L [W S] (I & K & K' & V). split; [congruence|]. split; [by eapply known_same|]. split; [done|].
  intros T T' A B SS k. rewrite <- (V T T') by (done || lia). by apply view_of_contents.
Qed.
Lemma agree_quiet_r D t t' u d d' d1 : (t' <= u)%N -> same_contents d' d1 -> agree D t t' d d' -> agree D t u d d1.
Proof.
  intros L [W S] (I & K & K' & V). split; [congruence|]. split; [done|]. split; [by eapply known_same|].
  intros T T' A B SS k. rewrite (V T T') by (done || lia). symmetry. by apply view_of_contents.
Qed.

Lemma purge_same t e d : (0 < en_at e <= t)%N -> same_contents d (purge_entry t e d).
Proof.
  intros L. split.
  - unfold purge_entry. pose proof (dict_get_same t (en_key e) d) as [W _]. destruct (dict_get t (en_key e) d) as [d1 [v|]];
      cbn [fst] in W; [|done]. by destruct (v_exp v =? en_at e)%N.
  - destruct (purge_entry_cases t e d) as [A|((x & _ & B) & _)]; [done|]. destruct B as [B|B]; lia.
Qed.

Lemma slot_op_quiet ho s p d :
  match snd p with SWrite _ | SFlush => False | SRead _ => True | SPurge e => (0 < en_at e <= fst p)%N end ->
  same_contents d (fst (slot_op ho s p d)).
Proof.
  destruct p as [t [w|r|e|]]; cbn [snd fst slot_op]; try done.
  - intros _. apply rapply_same.
  - apply purge_same.
Qed.

Lemma slot_write_dict s t w d : exists d1, inner d1 = inner d /\ write_id d1 = wrap_u64 (write_id d + 1) /\
  fst (slot_write s t w d) = fst (fst (wapply t w d1)).
Proof.
  exists (Dict (wrap_u64 (write_id d + 1)) (inner d)). split; [done|]. split; [done|].
  unfold slot_write. cbn [next_id]. destruct (wapply t w _) as [[d2 r] e]. by destruct r.
Qed.

Lemma contents_inner d d' k : inner d = inner d' -> contents d k = contents d' k.
Proof. intros H. unfold contents. by rewrite H. Qed.

Lemma agree_write (D : N -> Prop) s t t' u u' w d d' :
  is_restore w = false -> (forall e, names_deadline w e -> D e) ->
  (t <= u)%N -> (t' <= u')%N -> same_side D u u' -> agree D t t' d d' ->
  agree D u u' (fst (slot_write s u w d)) (fst (slot_write s u' w d')).
Proof.
  intros P N L L' SS (I & K & K' & V).
  destruct (slot_write_dict s u w d) as (d1 & I1 & W1 & ->).
  destruct (slot_write_dict s u' w d') as (d1' & I1' & W1' & ->).
  assert (C : forall k, contents d1 k = contents d k) by (intros; by apply contents_inner).
  assert (C' : forall k, contents d1' k = contents d' k) by (intros; by apply contents_inner).
  assert (KK : forall z dd dd1, (forall k, contents dd1 k = contents dd k) -> known D dd ->
                known D (fst (fst (wapply z w dd1)))).
  { intros z dd dd1 CC KD k x e Q. destruct (wapply_only z w dd1) as [_ O].
    destruct (decide (k = wkey w)) as [->|Hk].
    - destruct (wapply_deadline _ _ _ _ _ P Q) as [->|[(y & B)|B]]; [by left| |right; by apply N].
      rewrite CC in B. by apply (KD _ _ _ B).
    - assert (E : contents dd k = Some (x, e)). { rewrite <- CC, <- Q. unfold contents. by rewrite O. }
      by apply (KD _ _ _ E). }
  split; [by rewrite !wapply_write_id, W1, W1', I|]. split; [by apply (KK u d)|]. split; [by apply (KK u' d')|].
  intros T T' B B' ST k.
  assert (same : contents (fst (fst (wapply u w d1))) k = contents (fst (fst (wapply u' w d1'))) k ->
                 view T (fst (fst (wapply u w d1))) k = view T' (fst (fst (wapply u' w d1'))) k).
  { intros Q. unfold view. rewrite <- Q. destruct (contents (fst (fst (wapply u w d1))) k) as [[x e]|] eqn:E; [|done].
    destruct (KK u d d1 C K _ _ _ E) as [->|De].
    - rewrite !decide_True; try done; by left.
    - specialize (ST e De). destruct (decide (lives T e)), (decide (lives T' e)); tauto. }
  assert (keep : contents (fst (fst (wapply u w d1))) k = contents d k ->
                 contents (fst (fst (wapply u' w d1'))) k = contents d' k ->
                 view T (fst (fst (wapply u w d1))) k = view T' (fst (fst (wapply u' w d1'))) k).
  { intros Q Q'. rewrite (view_of_contents _ _ _ _ Q), (view_of_contents _ _ _ _ Q'). apply V; (done || lia). }
  destruct (decide (k = wkey w)) as [->|Hk].
  - assert (H : view u d1 (wkey w) = view u' d1' (wkey w)).
    { rewrite (view_of_contents _ _ _ _ (C _)), (view_of_contents _ _ _ _ (C' _)). apply V; (done || lia). }
    destruct (wapply_skew u u' w d1 d1' P H) as [Q|[Q Q']]; [by apply same|].
    rewrite C in Q. rewrite C' in Q'. by apply keep.
  - destruct (wapply_only u w d1) as [_ O], (wapply_only u' w d1') as [_ O'].
    apply keep; [rewrite <- C|rewrite <- C']; unfold contents; by rewrite ?O, ?O'.
Qed.

Lemma agree_later D t t' T T' d d' : (t <= T)%N -> (t' <= T')%N -> agree D t t' d d' -> agree D T T' d d'.
Proof.
  intros L L' (I & K & K' & V). split; [done|]. split; [done|]. split; [done|].
  intros U U' A B SS k. apply V; (done || lia).
Qed.

Lemma agree_run (D : N -> Prop) ho s n : forall h g t t' T T' d d',
  (length h + length g <= n)%nat ->
  writes h = writes g -> no_flush h -> no_flush g -> no_restore (writes h) ->
  (forall w e, In w (writes h) -> names_deadline w e -> D e) ->
  forward_from t h T -> forward_from t' g T' -> purges_due h -> purges_due g ->
  Forall2 (same_side D) (write_times h) (write_times g) ->
  agree D t t' d d' -> agree D T T' (slot_run ho s h d) (slot_run ho s g d').
Proof.
  induction n as [|n IH]; intros h g t t' T T' d d' Ln W F F' R N A A' P P' SS G.
  - destruct h, g; cbn [length] in Ln; try lia. cbn in *. by apply (agree_later D t t').
  - destruct h as [|[u o] h].
    + destruct g as [|[u' o'] g]; [cbn in *; by apply (agree_later D t t')|].
      cbn [forward_from] in A'. destruct A' as [A1 A2].
      inversion F' as [|? ? F1 F2]; subst. inversion P' as [|? ? P1 P2]; subst. cbn [snd fst] in *.
      assert (Q : match o' with SWrite _ | SFlush => False | SRead _ => True | SPurge e => (0 < en_at e <= u')%N end).
      { destruct o'; cbn in W; done. }
      cbn [slot_run]. apply (IH [] g t u'); try done; try (cbn in *; lia).
      * destruct o'; done.
      * destruct o'; done.
      * apply (agree_quiet_r D t t' u' d d'); [done| |done]. by apply slot_op_quiet.
    + cbn [forward_from] in A. destruct A as [A1 A2].
      inversion F as [|? ? F1 F2]; subst. inversion P as [|? ? P1 P2]; subst. cbn [snd fst] in *.
      destruct o as [w|r|e|]; [|cbn [slot_run writes write_times] in *..].
      2: { apply (IH h g u t'); try done; try (cbn in *; lia).
           apply (agree_quiet_l D t t' u d d'); [done| |done]. by apply slot_op_quiet. }
      2: { apply (IH h g u t'); try done; try (cbn in *; lia).
           apply (agree_quiet_l D t t' u d d'); [done| |done]. by apply slot_op_quiet. }
      2: done.
      destruct g as [|[u' o'] g]; [done|].
      cbn [forward_from] in A'. destruct A' as [A1' A2'].
      inversion F' as [|? ? F1' F2']; subst. inversion P' as [|? ? P1' P2']; subst. cbn [snd fst] in *.
      destruct o' as [w'|r'|e'|].
      * cbn [writes] in W, R, N. injection W as -> W. cbn [write_times] in SS.
        inversion SS as [|? ? ? ? S1 S2]; subst. inversion R as [|? ? R1 R2]; subst.
        cbn [slot_run]. apply (IH h g u u'); try done; try (cbn in *; lia).
        { intros w e I. apply N. by right. }
        unfold slot_op. cbn [snd fst].
        pose proof (agree_write D s t t' u u' w' d d' R1 (fun e => N w' e (or_introl eq_refl)) A1 A1' S1 G) as X.
        destruct (slot_write s u w' d), (slot_write s u' w' d'). exact X.
      * cbn [slot_run]. apply (IH ((u, SWrite w) :: h) g t u'); try done; try (cbn in *; lia).
        apply (agree_quiet_r D t t' u' d d'); [done| |done]. by apply slot_op_quiet.
      * cbn [slot_run]. apply (IH ((u, SWrite w) :: h) g t u'); try done; try (cbn in *; lia).
        apply (agree_quiet_r D t t' u' d d'); [done| |done]. by apply slot_op_quiet.
      * done.
Qed.

Lemma skew_views ho s d h g t t' T T' :
  writes h = writes g -> no_flush h -> no_flush g -> no_restore (writes h) ->
  forward_from t h T -> forward_from t' g T' -> purges_due h -> purges_due g ->
  Forall2 (same_side (deadlines d (writes h))) (write_times h) (write_times g) ->
  same_side (deadlines d (writes h)) T T' ->
  write_id (slot_run ho s h d) = write_id (slot_run ho s g d) /\
  forall k, view T (slot_run ho s h d) k = view T' (slot_run ho s g d) k.
Proof.
  intros W F F' R A A' P P' SS E. set (D := deadlines d (writes h)) in *.
  assert (G : agree D t t' d d).
  { split; [done|].
    assert (K : known D d). { intros k x e Q. right. left. by exists k, x. }
    split; [done|]. split; [done|]. intros U U' _ _ S k. unfold view.
    destruct (contents d k) as [[x e]|] eqn:Q; [|done].
    destruct (K _ _ _ Q) as [->|De].
    - rewrite !decide_True; try done; by left.
    - specialize (S e De). destruct (decide (lives U e)), (decide (lives U' e)); tauto. }
  assert (X : agree D T T' (slot_run ho s h d) (slot_run ho s g d)).
  { eapply (agree_run D ho s (length h + length g)); try eassumption; [lia|].
    intros w e I Q. right. by exists w. }
  destruct X as (I & _ & _ & V). split; [done|]. intros k. apply V; (done || lia).
Qed.

(** ** Prefixes *)
Lemma writes_app h g : writes (h ++ g) = writes h ++ writes g.
Proof. induction h as [|[t o] h IH]; [done|]. destruct o; cbn; by rewrite IH. Qed.
Lemma slot_run_app ho s h g d : slot_run ho s (h ++ g) d = slot_run ho s g (slot_run ho s h d).
Proof. revert d; induction h as [|p h IH]; intros d; cbn; [done|]. apply IH. Qed.

Lemma slot_op_id ho s p d : snd p <> SFlush ->
  write_id (fst (slot_op ho s p d)) = match snd p with SWrite _ => wrap_u64 (write_id d + 1) | _ => write_id d end /\
  forall m, In m (snd (slot_op ho s p d)) -> exists w, snd p = SWrite w /\
    m = FwdMsg (wrap_u64 (write_id d + 1)) s (to_write_cmd w).
Proof.
  destruct p as [t [w|r|e|]]; cbn [snd fst]; intros H; try done.
  - unfold slot_op; cbn [snd fst].
    pose proof (slot_write_seq s t w d) as Q. destruct (slot_write s t w d) as [d' o]. cbn [fst snd].
    destruct Q as [Q1 Q2]. split; [done|]. intros m I. exists w. split; [done|]. rewrite Q2 in I.
    destruct (wo_res o); cbn in I; tauto || (destruct I as [<-|[]]; done).
  - split; [|by intros m []]. cbn. destruct (rapply_same ho t r d) as [W _]. exact W.
  - split; [|by intros m []]. cbn. unfold purge_entry.
    pose proof (dict_get_same t (en_key e) d) as [W _]. destruct (dict_get t (en_key e) d) as [d1 [v|]];
      cbn [fst] in W; [|done]. by destruct (v_exp v =? en_at e)%N.
Qed.

Lemma slot_run_id ho s h d : no_flush h ->
  (write_id d + N.of_nat (length (writes h)) < 2 ^ 64)%N ->
  write_id (slot_run ho s h d) = (write_id d + N.of_nat (length (writes h)))%N.
Proof.
  revert d; induction h as [|p h IH]; intros d F B; [cbn; lia|].
  inversion F as [|? ? F1 F2]; subst. destruct (slot_op_id ho s p d F1) as [Q _].
  cbn [slot_run]. destruct p as [t o]; cbn [snd] in *. destruct o as [w|r|e|]; cbn [writes length] in *; try done.
  - unfold wrap_u64, two64 in Q. rewrite N.mod_small in Q by lia. rewrite IH; rewrite ?Q; (done || lia).
  - rewrite IH; rewrite ?Q; done.
  - rewrite IH; rewrite ?Q; done.
Qed.

Lemma slot_sent_in ho s h d m : no_flush h ->
  (write_id d + N.of_nat (length (writes h)) < 2 ^ 64)%N ->
  In m (slot_sent ho s h d) ->
  exists i w, writes h !! i = Some w /\ m = FwdMsg (write_id d + N.of_nat i + 1) s (to_write_cmd w).
Proof.
  revert d; induction h as [|p h IH]; intros d F B I; [done|].
  inversion F as [|? ? F1 F2]; subst. destruct (slot_op_id ho s p d F1) as [Q M].
  cbn [slot_sent] in I. apply in_app_iff in I. destruct I as [I|I].
  - destruct (M m I) as (w & E & ->). destruct p as [t o]; cbn [snd] in *; subst o. exists 0%nat, w.
    cbn [writes length] in *. unfold wrap_u64, two64. rewrite N.mod_small by lia. split; [done|]. f_equal. lia.
  - destruct p as [t o]; cbn [snd] in *. destruct o as [w|r|e|]; cbn [writes length] in *; try done.
    + unfold wrap_u64, two64 in Q. rewrite N.mod_small in Q by lia.
      assert (B' : (write_id (fst (slot_op ho s (t, SWrite w) d)) + N.of_nat (length (writes h)) < 2 ^ 64)%N) by lia.
      destruct (IH _ F2 B' I) as (i & w' & E & ->).
      exists (Datatypes.S i), w'. split; [done|]. f_equal. rewrite Q. lia.
    + rewrite <- Q in B. destruct (IH _ F2 B I) as (i & w' & E & ->). exists i, w'. rewrite Q. done.
    + rewrite <- Q in B. destruct (IH _ F2 B I) as (i & w' & E & ->). exists i, w'. rewrite Q. done.
Qed.

(** The follower is where a leader would be after the first [write_id] writes. *)
Definition at_prefix (ho : horder) (s : N) (h : list (N * sop)) (d : dict) : Prop :=
  exists p g, (exists q, h = p ++ q) /\ no_flush g /\ no_restore (writes g) /\
    d = slot_run ho s (p ++ g) dict_empty /\
    writes (p ++ g) = firstn (N.to_nat (write_id d)) (writes h).

Lemma at_prefix_id ho s h d : no_flush h -> (N.of_nat (length (writes h)) < 2 ^ 64)%N -> at_prefix ho s h d ->
  (N.to_nat (write_id d) <= length (writes h))%nat.
Proof.
  intros F B (p & g & (q & Hq) & G & _ & E & W).
  assert (X : (length (writes (p ++ g)) <= length (writes h))%nat).
  { rewrite W, firstn_length. lia. }
  assert (PG : no_flush (p ++ g)).
  { apply List.Forall_app. split; [|done]. subst h. apply List.Forall_app in F. tauto. }
  pose proof (slot_run_id ho s (p ++ g) dict_empty PG) as I. cbn [dict_empty write_id] in I.
  rewrite E. rewrite I by lia. lia.
Qed.

Lemma at_prefix_quiet ho s h d p1 : (snd p1 <> SFlush /\ forall w, snd p1 <> SWrite w) ->
  at_prefix ho s h d -> at_prefix ho s h (fst (slot_op ho s p1 d)).
Proof.
  intros [F1 F2] (p & g & Q & G & R & E & W). exists p, (g ++ [p1]).
  assert (Z : writes [p1] = []). { destruct p1 as [t o]; destruct o; cbn in *; try done. by destruct (F2 w). }
  split; [done|]. split; [apply List.Forall_app; split; [done|by constructor]|].
  split; [by rewrite writes_app, Z, app_nil_r|].
  rewrite app_assoc, slot_run_app. cbn [slot_run]. rewrite <- E. split; [done|].
  destruct (slot_op_id ho s p1 d F1) as [I _].
  replace (write_id (fst (slot_op ho s p1 d))) with (write_id d)
    by (rewrite I; destruct p1 as [t o]; destruct o; cbn in *; try done; by destruct (F2 w)).
  by rewrite writes_app, Z, app_nil_r, W.
Qed.

Lemma process_forward_write s t id w d :
  id = wrap_u64 (write_id d + 1) ->
  fst (fst (process_forward s t id (Some w) d)) = fst (slot_write s t w d).
Proof.
  intros ->. unfold process_forward. rewrite N.compare_refl. unfold slot_write. cbn [next_id].
  unfold set_write_id. destruct (wapply t w _) as [[d2 r] e]. by destruct r.
Qed.

Lemma follower_step ho s h p d : no_flush h -> (N.of_nat (length (writes h)) < 2 ^ 64)%N ->
  from_leader ho s h (snd p) -> at_prefix ho s h d -> at_prefix ho s h (follower_op ho s p d).
Proof.
  intros F B L A. destruct p as [t o]. cbn [snd] in L. destruct o as [m|r|w|e|d']; cbn [follower_op snd fst from_leader] in *.
  - destruct (slot_sent_in ho s h dict_empty m F B L) as (i & w & I & ->). cbn [fm_id fm_cmd dict_empty write_id].
    destruct (to_write_cmd w) as [w'|] eqn:TW; [|done].
    assert (w' = w /\ is_restore w = false) as [-> R] by (destruct w; cbn in *; by inversion TW).
    destruct (N.eq_dec (0 + N.of_nat i + 1) (wrap_u64 (write_id d + 1))) as [E|E].
    2: { unfold process_forward. destruct (N.compare_spec (0 + N.of_nat i + 1) (wrap_u64 (write_id d + 1))); done. }
    rewrite process_forward_write by done.
    pose proof (at_prefix_id ho s h d F B A) as Id.
    destruct A as (p & g & Q & G & RR & E0 & W).
    exists p, (g ++ [(t, SWrite w)]).
    split; [done|]. split; [apply List.Forall_app; split; [done|by constructor]|].
    split; [rewrite writes_app; apply List.Forall_app; split; [done|by constructor]|].
    rewrite app_assoc, slot_run_app. cbn [slot_run]. rewrite <- E0.
    assert (X : fst (slot_op ho s (t, SWrite w) d) = fst (slot_write s t w d)).
    { unfold slot_op; cbn [snd fst]. by destruct (slot_write s t w d). }
    rewrite X. split; [done|].
    pose proof (slot_write_seq s t w d) as Y. destruct (slot_write s t w d) as [d2 o2]. cbn [fst]. destruct Y as [Y _].
    rewrite Y, <- E. rewrite writes_app, W. cbn [writes].
    assert (WI : N.of_nat i = write_id d).
    { unfold wrap_u64, two64 in E. rewrite N.mod_small in E by lia. lia. }
    replace (N.to_nat (0 + N.of_nat i + 1)) with (Datatypes.S i) by lia.
    rewrite <- WI, Nat2N.id. symmetry. by apply take_S_r.
  - by apply (at_prefix_quiet ho s h d (t, SRead r)).
  - done.
  - by apply (at_prefix_quiet ho s h d (t, SPurge e)).
  - unfold slot_replace. cbn [fst]. destruct L as (p & q & -> & ->). exists p, []. rewrite app_nil_r.
    split; [by exists q|]. split; [by constructor|]. split; [by constructor|]. split; [done|].
    apply List.Forall_app in F. destruct F as [F1 F2]. rewrite writes_app, app_length in B.
    rewrite slot_run_id by (try done; cbn [dict_empty write_id]; lia). cbn [dict_empty write_id].
    rewrite writes_app. replace (N.to_nat (0 + N.of_nat (length (writes p)))) with (length (writes p)) by lia.
    by rewrite firstn_app, Nat.sub_diag, firstn_all, firstn_O, app_nil_r.
Qed.

Lemma follower_steps ho s h f d : no_flush h -> (N.of_nat (length (writes h)) < 2 ^ 64)%N ->
  Forall (fun p => from_leader ho s h (snd p)) f -> at_prefix ho s h d -> at_prefix ho s h (follower_run ho s f d).
Proof.
  intros F B. revert d; induction f as [|p f IH]; intros d L A; [done|].
  inversion L; subst. cbn. apply IH; [done|]. by apply follower_step.
Qed.

Lemma at_prefix_start ho s h : at_prefix ho s h dict_empty.
Proof. exists [], []. cbn. split; [by exists h|]. repeat split; by constructor. Qed.

(** ** Everything delivered in order *)
Definition deliver_at (ts : list N) (ms : list fwd_msg) : list (N * fop) := zip_with (fun t m => (t, FDeliver m)) ts ms.
Definition writes_at (ts : list N) (ws : list wreq) : list (N * sop) := zip_with (fun t w => (t, SWrite w)) ts ws.

Lemma slot_sent_le ho s h d : (length (slot_sent ho s h d) <= length (writes h))%nat.
Proof.
  revert d; induction h as [|[t o] h IH]; intros d; [done|]. cbn [slot_sent]. rewrite app_length.
  specialize (IH (fst (slot_op ho s (t, o) d))). destruct o as [w|r|e|]; unfold slot_op in *; cbn [snd fst writes length] in *.
  - pose proof (slot_write_seq s t w d) as Q.
    destruct (slot_write s t w d) as [d' o]. cbn [fst snd] in *.
    destruct Q as [_ ->]. destruct (wo_res o); cbn [length]; lia.
  - lia.
  - lia.
  - lia.
Qed.

Lemma deliver_all ho s h : forall ts d d', no_flush h -> no_restore (writes h) ->
  length (slot_sent ho s h d) = length (writes h) -> write_id d' = write_id d ->
  follower_run ho s (deliver_at ts (slot_sent ho s h d)) d' = slot_run ho s (writes_at ts (writes h)) d'.
Proof.
  induction h as [|[t o] h IH]; intros ts d d' F R L W; [by destruct ts|].
  inversion F as [|? ? F1 F2]; subst. cbn [snd] in F1.
  destruct (slot_op_id ho s (t, o) d F1) as [I _]. cbn [snd] in I.
  cbn [slot_sent] in *. pose proof (slot_sent_le ho s h (fst (slot_op ho s (t, o) d))) as LE. rewrite app_length in L.
  destruct o as [w|r|e|]; [|cbn [writes] in *..].
  - cbn [writes] in *. inversion R as [|? ? R1 R2]; subst. cbn [length] in L.
    pose proof (slot_write_seq s t w d) as Q. revert L I LE IH. unfold slot_op. cbn [snd fst].
    destruct (slot_write s t w d) as [d1 o1]. cbn [fst snd]. destruct Q as [Q1 Q2]. intros L I LE IH.
    assert (M : wo_fwd o1 = [FwdMsg (wrap_u64 (write_id d + 1)) s (Some w)]).
    { rewrite Q2 in *. destruct (wo_res o1); cbn [length] in L; try lia; destruct w; done. }
    rewrite M in *. cbn [length] in L. cbn [app]. destruct ts as [|u ts]; [done|].
    unfold deliver_at, writes_at. cbn [zip_with follower_run slot_run]. unfold follower_op. cbn [snd fst fm_id fm_cmd].
    rewrite process_forward_write by (by rewrite W).
    unfold slot_op. cbn [snd fst]. pose proof (slot_write_seq s u w d') as Q'.
    destruct (slot_write s u w d') as [d2 o2]. cbn [fst]. destruct Q' as [Q' _].
    apply IH; try done; [lia|]. by rewrite Q', Q1, W.
  - apply IH; try done. congruence.
  - apply IH; try done. congruence.
  - done.
Qed.

Lemma writes_writes_at ts ws : length ts = length ws -> writes (writes_at ts ws) = ws /\ write_times (writes_at ts ws) = ts.
Proof.
  revert ws; induction ts as [|t ts IH]; intros [|w ws] L; try done. injection L as L. destruct (IH ws L) as [A B].
  unfold writes_at in *. cbn. by rewrite A, B.
Qed.
Lemma writes_at_plain ts ws : no_flush (writes_at ts ws) /\ purges_due (writes_at ts ws).
Proof.
  revert ws; induction ts as [|t ts IH]; intros [|w ws]; try (split; by constructor). destruct (IH ws) as [A B].
  unfold writes_at in *. cbn. split; by constructor.
Qed.
Lemma forward_writes_at t ts ws T : length ts = length ws -> times_forward t ts T -> forward_from t (writes_at ts ws) T.
Proof.
  revert t ws; induction ts as [|u ts IH]; intros t [|w ws] L H; try done. injection L as L. cbn in *.
  split; [tauto|]. apply IH; tauto.
Qed.
