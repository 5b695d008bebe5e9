(** Lemmas about the dictionary operations. *)
From Coq Require Export ZifyBool ZifyNat ZifyN.
From Verif Require Export Cmd Spec.

(** ** Views *)
Lemma alive_lives now v : alive now v = true <-> lives now (v_exp v).
Proof. unfold alive, lives. lia. Qed.

Lemma view_unfold t d k :
  view t d k = match inner d !! k with
               | Some v => if alive t v then Some (v_data v, v_exp v) else None
               | None => None
               end.
Proof.
  unfold view, contents. destruct (inner d !! k) as [v|]; cbn; [|done].
  destruct (decide (lives t (v_exp v))) as [H|H]; destruct (alive t v) eqn:E; try done.
  - apply alive_lives in H. congruence.
  - apply alive_lives in E. done.
Qed.

Lemma view_contents_eq t d d' k : contents d' k = contents d k -> view t d' k = view t d k.
Proof. unfold view. by intros ->. Qed.

Lemma view_same_contents t d d' k : same_contents d d' -> view t d' k = view t d k.
Proof. intros [_ H]. apply view_contents_eq, H. Qed.

Lemma view_only_key t k k' d d' : only_key k d d' -> k' <> k -> view t d' k' = view t d k'.
Proof. intros [_ H] Hk. unfold view, contents. by rewrite H. Qed.

Lemma same_contents_refl d : same_contents d d.
Proof. done. Qed.
Lemma same_contents_trans d1 d2 d3 : same_contents d1 d2 -> same_contents d2 d3 -> same_contents d1 d3.
Proof. intros [A B] [C D]. split; [congruence|]. intros k. rewrite D. apply B. Qed.
Lemma only_key_refl k d : only_key k d d.
Proof. done. Qed.
Lemma only_key_trans k d1 d2 d3 : only_key k d1 d2 -> only_key k d2 d3 -> only_key k d1 d3.
Proof. intros [A B] [C D]. split; [congruence|]. intros k' Hk. rewrite D by done. by apply B. Qed.

Lemma only_key_put k v d : only_key k d (dict_put k v d).
Proof. split; [done|]. intros k' Hk. cbn. by rewrite lookup_insert_ne. Qed.
Lemma only_key_insert k v d : only_key k d (fst (dict_insert k v d)).
Proof. apply only_key_put. Qed.
Lemma only_key_remove k d : only_key k d (fst (dict_remove k d)).
Proof. split; [done|]. intros k' Hk. cbn. by rewrite lookup_delete_ne. Qed.

Lemma contents_put k v d : contents (dict_put k v d) k = Some (content v).
Proof. unfold contents. cbn. by rewrite lookup_insert. Qed.
Lemma contents_put_ne k k' v d : k' <> k -> contents (dict_put k v d) k' = contents d k'.
Proof. intros H. unfold contents. cbn. by rewrite lookup_insert_ne. Qed.
Lemma put_put k v w d : dict_put k v (dict_put k w d) = dict_put k v d.
Proof. unfold dict_put. cbn. by rewrite insert_insert. Qed.
Lemma inner_put k v d : inner (dict_put k v d) !! k = Some v.
Proof. cbn. by rewrite lookup_insert. Qed.

Lemma same_contents_put k v d :
  contents d k = Some (content v) -> same_contents d (dict_put k v d).
Proof.
  intros H. split; [done|]. intros k'. destruct (decide (k' = k)) as [->|Hk].
  - by rewrite contents_put.
  - by apply contents_put_ne.
Qed.

(** ** [dict_get] *)
Inductive get_case (now : N) (k : bytes) (d : dict) : dict * option value -> Prop :=
  | get_hit v : inner d !! k = Some v -> alive now v = true ->
      view now d k = Some (v_data v, v_exp v) ->
      get_case now k d (dict_put k (touch now v) d, Some (touch now v))
  | get_miss : view now d k = None -> get_case now k d (d, None).

Lemma dict_get_case now k d : get_case now k d (dict_get now k d).
Proof.
  unfold dict_get. destruct (inner d !! k) as [v|] eqn:E.
  - destruct (alive now v) eqn:A.
    + apply get_hit; try done. by rewrite view_unfold, E, A.
    + apply get_miss. by rewrite view_unfold, E, A.
  - apply get_miss. by rewrite view_unfold, E.
Qed.

Lemma dict_get_same now k d : same_contents d (fst (dict_get now k d)).
Proof.
  destruct (dict_get_case now k d) as [v E A V|V]; cbn; [|done].
  apply same_contents_put. unfold contents. by rewrite E.
Qed.

Lemma dict_get_only now k d : only_key k d (fst (dict_get now k d)).
Proof.
  destruct (dict_get_case now k d) as [v E A V|V]; cbn; [|done]. apply only_key_put.
Qed.

(** ** [get_or_insert_with] *)
Inductive goi_case (now : N) (k : bytes) (f : value) (d : dict) : dict * value -> Prop :=
  | goi_hit v : inner d !! k = Some v -> alive now v = true ->
      view now d k = Some (v_data v, v_exp v) ->
      goi_case now k f d (dict_put k (touch now v) d, touch now v)
  | goi_new : view now d k = None ->
      goi_case now k f d (dict_put k f d, f).

Lemma goi_cases now k f d : goi_case now k f d (get_or_insert_with now k f d).
Proof.
  unfold get_or_insert_with. destruct (inner d !! k) as [v|] eqn:E.
  - destruct ((0 <? v_exp v)%N && (v_exp v <=? now)%N) eqn:A.
    + apply goi_new. rewrite view_unfold, E. replace (alive now v) with false; [done|].
      unfold alive. lia.
    + assert (H : alive now v = true) by (unfold alive; lia).
      apply goi_hit; try done. by rewrite view_unfold, E, H.
  - apply goi_new. by rewrite view_unfold, E.
Qed.

Lemma content_touch now v : content (touch now v) = content v.
Proof. done. Qed.

Lemma contents_of_inner d k v : inner d !! k = Some v -> contents d k = Some (content v).
Proof. unfold contents. by intros ->. Qed.
