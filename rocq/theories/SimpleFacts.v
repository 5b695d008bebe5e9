(** Proofs about the string and key commands. *)
From Verif Require Export CmdFacts SpecSimple SpecCmd BytesFacts.

Local Arguments dict_put : simpl never.

Lemma view_cases t d k :
  (exists v, inner d !! k = Some v /\ alive t v = true /\ view t d k = Some (v_data v, v_exp v)) \/
  view t d k = None.
Proof.
  rewrite view_unfold. destruct (inner d !! k) as [v|]; [|by right].
  destruct (alive t v) eqn:A; [left; exists v; eauto|by right].
Qed.

(** ** SET *)
Lemma set_spec now k x ea nx d d' reply upd :
  set_apply now k x ea nx d = (d', reply, upd) ->
  only_key k d d' /\
  (if set_stores nx (view now d k)
   then contents d' k = Some (DScalar x, set_deadline ea (view now d k))
   else contents d' k = contents d k) /\
  (nx <> NxXx_None \/ ea = Last -> reply = seen_data (view now d k)).
Proof.
  intros H. split.
  { pose proof (wapply_only now (WSet k x ea nx) d) as O. cbn in O. rewrite H in O. exact O. }
  unfold set_apply in H. destruct nx, ea as [e|]; try rewrite !dict_insert_put in H.
  1: { injection H as <- <- <-. split; [apply contents_put|]. intros [F|F]; done. }
  all: destruct (dict_get_case now k d) as [v E A V|V]; rewrite V; cbn;
       rewrite ?dict_insert_put in H; injection H as <- <- <-; cbn.
  all: rewrite ?lookup_insert; split;
       [first [ by rewrite contents_put | rewrite contents_put; by rewrite (contents_of_inner _ _ _ E) | done ] | intros _; done ].
Qed.

(** ** GET / EXISTS / TTL *)
Lemma get_spec now k d :
  snd (get_apply now k d) = seen_data (view now d k).
Proof.
  unfold get_apply. destruct (dict_get_case now k d) as [v E A V|V]; rewrite V; done.
Qed.

Lemma exists_spec now k d :
  snd (exists_apply now k d) = match view now d k with Some _ => true | None => false end.
Proof.
  unfold exists_apply, dict_exists. destruct (dict_get_case now k d) as [v E A V|V]; rewrite V; done.
Qed.

Lemma ttl_spec now k d :
  ttl_apply now k d =
  match view now d k with
  | None => TtlNotExist
  | Some (_, e) => if (e =? 0)%N then TtlNone else Ttl (e - now)
  end.
Proof.
  unfold ttl_apply, raw_get. rewrite view_unfold.
  destruct (inner d !! k) as [v|]; [|done]. by destruct (alive now v).
Qed.

(** ** EXPIRE *)
Lemma expire_spec now k new nx gl d d' b upd :
  expire_apply now k new nx gl d = (d', b, upd) ->
  only_key k d d' /\
  match view now d k with
  | None => b = false /\ contents d' k = contents d k
  | Some (x, e) =>
      b = expire_update nx gl e new /\
      contents d' k = if b then Some (x, new) else contents d k
  end.
Proof.
  intros H. split.
  { pose proof (wapply_only now (WExpire k new nx gl) d) as O. cbn in O. rewrite H in O. exact O. }
  unfold expire_apply in H. destruct (dict_get_case now k d) as [v E A V|V]; rewrite V.
  - cbn [v_exp touch] in H. destruct (expire_update nx gl (v_exp v) new) eqn:U; injection H as <- <- <-.
    + split; [done|]. rewrite put_put, contents_put. done.
    + split; [done|]. rewrite contents_put. by rewrite (contents_of_inner _ _ _ E).
  - injection H as <- <- <-. done.
Qed.

Lemma expire_table nx gl e new :
  match nx, gl with
  | NxXx_Nx, GtLt_Gt | NxXx_Nx, GtLt_Lt => expire_update nx gl e new = false
  | NxXx_Xx, GtLt_Lt => e <> 0%N -> expire_update nx gl e new = expire_allowed nx gl (forever_or e) new
  | _, _ => expire_update nx gl e new = expire_allowed nx gl (forever_or e) new
  end.
Proof.
  unfold expire_update, expire_allowed, forever_or, expire_nx_xx, expire_gt_lt.
  destruct nx, gl; try done; destruct (e =? 0)%N eqn:E; cbn; lia.
Qed.

(** ** DEL *)
Lemma del_spec k d d' r upd :
  del_apply k d = (d', r, upd) ->
  only_key k d d' /\ contents d' k = None /\ content <$> r = contents d k.
Proof.
  intros H. split.
  { pose proof (wapply_only 0 (WDel k) d) as O. cbn [wapply wkey] in O. rewrite H in O. exact O. }
  unfold del_apply, dict_remove in H. unfold contents.
  destruct (inner d !! k) as [v|] eqn:E; injection H as <- <- <-; cbn;
    rewrite lookup_delete; done.
Qed.

(** ** INCR *)
Lemma atoi_none_prefix t : no_number_prefix t -> atoi_i64 t = None.
Proof.
  destruct t as [|b t]; [done|]. intros (N1 & N2 & N3). rewrite atoi_unsigned by done.
  rewrite atoi_loop_stop; [done|]. cbn. unfold is_digit, byte_digit.
  replace ((48 <=? Byte.to_N b)%N && (Byte.to_N b <=? 57)%N) with false by lia. done.
Qed.

Lemma stands_for_i64 x z : stands_for x z -> data_as_i64 x = OOk z.
Proof.
  intros [R [->|[->| ->]]]; [done|..]; cbn.
  all: replace (show_Z z) with (show_Z z ++ []) by apply app_nil_r.
  all: rewrite atoi_show_Z; [done| |done]; unfold is_i64; lia.
Qed.

Lemma incr_spec now k n d d' r :
  incr_apply now k n d = (d', r) ->
  only_key k d d' /\
  match view now d k with
  | None => r = OOk n /\ contents d' k = Some (DInteger n, 0%N)
  | Some (x, e) =>
      match data_as_i64 x with
      | OOk z => r = OOk (wrap_i64 (z + n)) /\ contents d' k = Some (DInteger (wrap_i64 (z + n)), e)
      | OErr er => r = OErr er /\ contents d' k = contents d k
      | OPanic => False
      end
  end.
Proof.
  intros H. split.
  { pose proof (wapply_only now (WIncr k n) d) as O. cbn in O. rewrite H in O. exact O. }
  unfold incr_apply in H. destruct (dict_get_case now k d) as [v E A V|V]; rewrite V.
  - cbn [v_data touch] in H.
    assert (P : data_as_i64 (v_data v) <> OPanic).
    { destruct (v_data v) as [[]| | | |]; cbn; try done; by destruct (atoi_i64 _). }
    destruct (data_as_i64 (v_data v)) as [z|er|] eqn:D; [| |done]; injection H as <- <-.
    + rewrite put_put, contents_put. done.
    + rewrite contents_put. split; [done|]. by rewrite (contents_of_inner _ _ _ E).
  - rewrite dict_insert_put in H. injection H as <- <-. cbn [fst]. rewrite contents_put. done.
Qed.

(** ** Expiry notifications of all commands *)
Lemma contents_keep_deadline d d' k v :
  inner d !! k = Some v -> contents d' k = Some (v_data v, v_exp v) -> deadline d' k = deadline d k.
Proof.
  intros E H. unfold deadline. rewrite H. unfold contents. by rewrite E.
Qed.

Lemma deadline_put k v d : deadline (dict_put k v d) k = v_exp v.
Proof. unfold deadline. by rewrite contents_put. Qed.

Lemma deadline_of_inner d k v : inner d !! k = Some v -> deadline d k = v_exp v.
Proof. unfold deadline, contents. by intros ->. Qed.

Ltac solve_announces :=
  rewrite ?dict_insert_put; cbn [fst snd];
  lazymatch goal with
  | |- context [match ?x with _ => _ end] => split_match; solve_announces
  | |- announces _ ?d ?d _ => left; reflexivity
  | |- announces _ _ _ _ =>
      rewrite ?put_put; unfold announces; rewrite ?deadline_put;
      cbn [with_data touch fresh_value v_exp v_data eu_key eu_new];
      first [ by split | left; symmetry; by apply deadline_of_inner | right; reflexivity ]
  end.

Lemma wapply_announces now w d d' r u :
  wapply now w d = (d', r, u) -> announces (wkey w) d d' u.
Proof.
  intros H. replace d' with (fst (fst (wapply now w d))) by (by rewrite H).
  replace u with (snd (wapply now w d)) by (by rewrite H). clear H d' r u.
  destruct w; cbn [wapply wkey]; cmd_unfold.
  1: { unfold dict_remove. destruct (inner d !! k) as [v|] eqn:E; cbn [fst snd].
       - destruct (0 <? v_exp v)%N eqn:Z; unfold announces; cbn [eu_key eu_new].
         + split; [done|]. unfold deadline, contents. cbn. by rewrite lookup_delete.
         + right. unfold deadline, contents. cbn. by rewrite lookup_delete.
       - right. unfold deadline, contents. cbn. by rewrite lookup_delete. }
  3: { destruct nx, ea as [e|]; rewrite ?dict_insert_put; cbn [fst snd].
       1: { destruct (0 <? e)%N eqn:Z; unfold announces; rewrite deadline_put; cbn; [done|right; lia]. }
       all: case_get; rewrite ?dict_insert_put; cbn [fst snd];
         try destruct (e =? 0)%N eqn:Z; try solve_announces.
       all: unfold announces; rewrite deadline_put; cbn; right; lia. }
  all: try case_get; cbn [fst snd]; solve_announces.
Qed.

(** ** Expired keys behave like absent ones *)
Lemma view_mono t t' d k : (t <= t')%N -> view t d k = None -> view t' d k = None.
Proof.
  rewrite !view_unfold. destruct (inner d !! k) as [v|]; [|done]. unfold alive.
  destruct ((v_exp v =? 0)%N || (t <? v_exp v)%N) eqn:E; [done|].
  intros H _. replace ((v_exp v =? 0)%N || (t' <? v_exp v)%N) with false by lia. done.
Qed.

Lemma view_without t k d : view t (without k d) k = None.
Proof. rewrite view_unfold. cbn. by rewrite lookup_delete. Qed.

Lemma dict_get_none now k d : view now d k = None -> dict_get now k d = (d, None).
Proof.
  intros H. destruct (dict_get_case now k d) as [v E A V|V]; [congruence|done].
Qed.
Lemma goi_none now k f d : view now d k = None -> get_or_insert_with now k f d = (dict_put k f d, f).
Proof.
  intros H. destruct (goi_cases now k f d) as [v E A V|V]; [congruence|done].
Qed.

Lemma view_put_eq t k v d d' : view t (dict_put k v d) k = view t (dict_put k v d') k.
Proof. unfold view. by rewrite !contents_put. Qed.

Definition wres_like (now : N) (k : bytes) (a b : dict * outcome resp * exp_status) : Prop :=
  snd (fst a) = snd (fst b) /\ snd a = snd b /\
  forall t, (now <= t)%N -> view t (fst (fst a)) k = view t (fst (fst b)) k.

Ltac solve_like V W :=
  rewrite ?dict_insert_put; cbn [fst snd];
  lazymatch goal with
  | |- context [match ?x with _ => _ end] => split_match; solve_like V W
  | |- wres_like _ _ _ _ =>
      split; [reflexivity|]; split; [reflexivity|]; cbn [fst snd];
      let t := fresh "t" in let Ht := fresh "Ht" in intros t Ht; rewrite ?put_put;
      first [ apply view_put_eq | rewrite (view_mono _ _ _ _ Ht V), (view_mono _ _ _ _ Ht W); reflexivity ]
  end.

Lemma wapply_expired now w d :
  peeks w = false -> view now d (wkey w) = None ->
  wres_like now (wkey w) (wapply now w d) (wapply now w (without (wkey w) d)).
Proof.
  intros P V. pose proof (view_without now (wkey w) d) as W.
  set (d0 := without (wkey w) d) in *. clearbody d0.
  destruct w; cbn [wapply wkey peeks] in *; try done; cmd_unfold.
  all: rewrite ?(dict_get_none _ _ _ V), ?(dict_get_none _ _ _ W), ?(goi_none _ _ _ _ V), ?(goi_none _ _ _ _ W).
  all: try (destruct nx, ea; try done; rewrite ?(dict_get_none _ _ _ V), ?(dict_get_none _ _ _ W)).
  all: solve_like V W.
Qed.

Lemma rapply_expired ho now r d :
  rpeeks r = false -> view now d (rkey r) = None ->
  snd (rapply ho now r d) = snd (rapply ho now r (without (rkey r) d)).
Proof.
  intros P V. pose proof (view_without now (rkey r) d) as W.
  set (d0 := without (rkey r) d) in *. clearbody d0.
  destruct r; cbn [rapply rkey rpeeks] in *; try done; cmd_unfold.
  all: rewrite ?(dict_get_none _ _ _ V), ?(dict_get_none _ _ _ W), ?ttl_spec, ?V, ?W; reflexivity.
Qed.

Lemma rapply_before_deadline ho now r d x e :
  tells_deadline r = false -> view now d (rkey r) = Some (x, e) ->
  snd (rapply ho now r d) = snd (rapply ho now r (undying (rkey r) d)).
Proof.
  intros P V.
  assert (G : forall k, view now d k = Some (x, e) -> exists v, inner d !! k = Some v /\ alive now v = true).
  { intros k. rewrite view_unfold. destruct (inner d !! k) as [v|]; [|done].
    destruct (alive now v) eqn:A; [|done]. eauto. }
  destruct (G _ V) as (v & E & A).
  set (d0 := undying (rkey r) d).
  assert (E0 : inner d0 !! rkey r = Some (Value (v_data v) 0 (v_log v))).
  { unfold d0, undying. cbn. rewrite lookup_alter, E. done. }
  clearbody d0.
  assert (D1 : exists d1, dict_get now (rkey r) d = (d1, Some (touch now v))).
  { unfold dict_get. rewrite E, A. eauto. }
  assert (D2 : exists d2, dict_get now (rkey r) d0 = (d2, Some (touch now (Value (v_data v) 0 (v_log v))))).
  { unfold dict_get. rewrite E0. cbn. eauto. }
  destruct D1 as [d1 D1], D2 as [d2 D2].
  destruct r; cbn [rapply rkey tells_deadline] in *; try done; cmd_unfold.
  all: rewrite ?D1, ?D2; cbn [touch v_data].
  all: unfold get_last_visit_time_apply, get_visit_times_apply, raw_get; rewrite ?E, ?E0; try reflexivity.
  all: destruct (v_data v); try reflexivity.
  all: repeat (rewrite ?dict_insert_put; split_match); reflexivity.
Qed.
