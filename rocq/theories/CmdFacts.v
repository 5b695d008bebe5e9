(** Lemmas that hold uniformly for all dictionary commands: framing, locality, purity of reads. *)
From Verif Require Export DictFacts.

Local Arguments dict_put : simpl never.
Local Arguments touch : simpl never.

(** Look up the key a command starts with. *)
Ltac case_get :=
  match goal with
  | |- context [dict_get ?now ?k ?d] =>
      let v := fresh "v" in let E := fresh "E" in let A := fresh "A" in let V := fresh "V" in
      destruct (dict_get_case now k d) as [v E A V|V]; cbn [fst snd]
  | |- context [get_or_insert_with ?now ?k ?f ?d] =>
      let v := fresh "v" in let E := fresh "E" in let A := fresh "A" in let V := fresh "V" in
      destruct (goi_cases now k f d) as [v E A V|V]; cbn [fst snd]
  end.

(** Split every remaining match, keeping the equations. *)
Ltac split_match :=
  match goal with
  | |- context [match ?x with _ => _ end] =>
      lazymatch x with context [match _ with _ => _ end] => fail | _ => idtac end;
      first [ is_var x; destruct x | destruct x eqn:? ]; cbn [fst snd]
  end.
Ltac split_matches := repeat split_match.

Lemma dict_insert_put k v d : dict_insert k v d = (dict_put k v d, inner d !! k).
Proof. done. Qed.

Ltac solve_only :=
  rewrite ?dict_insert_put; cbn [fst snd];
  lazymatch goal with
  | |- only_key _ ?d ?d => exact (only_key_refl _ _)
  | |- only_key _ ?d (dict_put _ _ ?d) => exact (only_key_put _ _ _)
  | |- only_key _ ?d (dict_put _ _ (dict_put _ _ _)) => rewrite put_put; solve_only
  | |- context [match ?x with _ => _ end] => split_match; solve_only
  end.


(** ** A command touches only its own key *)
Ltac cmd_unfold :=
  unfold del_apply, expire_apply, incr_apply, set_apply, kvp_del_apply, kvp_incr_apply,
    kvp_set_apply, deque_pop_apply, deque_push_apply, set_add_apply, set_remove_apply, zadd_apply,
    zrem_apply, zremrange_rank_apply, zremrange_score_apply, zremrange_lex_apply, zremove_finish,
    restore_apply, exists_apply, dict_exists, get_apply, dump_apply, kvp_get_apply, kvp_get_all_apply,
    kvp_exists_apply, deque_len_apply, deque_range_apply, set_exists_apply, set_get_all_apply,
    zrank_apply, zrange_rank_apply, zrange_score_apply, zrange_lex_apply, no_exp in *;
  rewrite ?dict_insert_put in *.

Lemma wapply_only now w d : only_key (wkey w) d (fst (fst (wapply now w d))).
Proof.
  destruct w; cbn [wapply wkey]; cmd_unfold.
  1: { unfold dict_remove. destruct (inner d !! k); apply (only_key_remove k d). }
  all: try case_get; solve_only.
Qed.

Lemma rapply_only ho now r d : only_key (rkey r) d (fst (rapply ho now r d)).
Proof.
  destruct r; cbn [rapply rkey]; cmd_unfold; try case_get; solve_only.
Qed.

(** ** Reads leave data, deadlines and the sequence number alone *)
Lemma rapply_same ho now r d : same_contents d (fst (rapply ho now r d)).
Proof.
  assert (H : forall k, same_contents d (fst (dict_get now k d))) by (intros; apply dict_get_same).
  destruct r; cbn [rapply]; cmd_unfold; try exact (same_contents_refl d);
    specialize (H k); destruct (dict_get now k d) as [d1 o]; cbn [fst] in H |- *;
    split_matches; exact H.
Qed.

(** ** A command looks only at its own key *)
Lemma dict_get_local now k d1 d2 : inner d1 !! k = inner d2 !! k ->
  exists a1 a2 o, dict_get now k d1 = (a1, o) /\ dict_get now k d2 = (a2, o) /\ inner a1 !! k = inner a2 !! k.
Proof.
  intros H. unfold dict_get. rewrite H. destruct (inner d2 !! k) as [v|] eqn:E.
  - destruct (alive now v).
    + do 3 eexists. split; [reflexivity|]. split; [reflexivity|]. by rewrite !inner_put.
    + do 3 eexists. split; [reflexivity|]. split; [reflexivity|]. congruence.
  - do 3 eexists. split; [reflexivity|]. split; [reflexivity|]. congruence.
Qed.

Lemma goi_local now k f d1 d2 : inner d1 !! k = inner d2 !! k ->
  exists a1 a2 v, get_or_insert_with now k f d1 = (a1, v) /\ get_or_insert_with now k f d2 = (a2, v)
    /\ inner a1 !! k = inner a2 !! k.
Proof.
  intros H. unfold get_or_insert_with. rewrite H. destruct (inner d2 !! k) as [v|] eqn:E; [case_match|];
    (do 3 eexists; split; [reflexivity|]; split; [reflexivity|]; by rewrite !inner_put).
Qed.

Definition wres_agree (k : bytes) (a b : dict * outcome resp * exp_status) : Prop :=
  snd (fst a) = snd (fst b) /\ snd a = snd b /\ inner (fst (fst a)) !! k = inner (fst (fst b)) !! k.
Definition rres_agree (k : bytes) (a b : dict * outcome resp) : Prop :=
  snd a = snd b /\ inner (fst a) !! k = inner (fst b) !! k.

Ltac local_get :=
  match goal with
  | H : inner ?d1 !! ?k = inner ?d2 !! ?k |- context [dict_get ?now ?k ?d1] =>
      let a1 := fresh "a1" in let a2 := fresh "a2" in let o := fresh "o" in
      let E1 := fresh "E1" in let E2 := fresh "E2" in let E := fresh "E" in
      destruct (dict_get_local now k d1 d2 H) as (a1 & a2 & o & E1 & E2 & E); rewrite E1, E2;
      rewrite ?E1, ?E2
  | H : inner ?d1 !! ?k = inner ?d2 !! ?k |- context [get_or_insert_with ?now ?k ?f ?d1] =>
      let a1 := fresh "a1" in let a2 := fresh "a2" in let o := fresh "o" in
      let E1 := fresh "E1" in let E2 := fresh "E2" in let E := fresh "E" in
      destruct (goi_local now k f d1 d2 H) as (a1 & a2 & o & E1 & E2 & E); rewrite E1, E2
  end.

Ltac solve_local :=
  rewrite ?dict_insert_put; cbn [fst snd];
  first
    [ split; [reflexivity|]; split; [reflexivity|]; cbn [fst snd]; rewrite ?inner_put; first [reflexivity | assumption]
    | split; [reflexivity|]; cbn [fst snd]; rewrite ?inner_put; first [reflexivity | assumption]
    | split_match; solve_local ].

Lemma wapply_local now w d1 d2 : inner d1 !! wkey w = inner d2 !! wkey w ->
  wres_agree (wkey w) (wapply now w d1) (wapply now w d2).
Proof.
  intros H. destruct w; cbn [wapply wkey] in *; cmd_unfold; unfold wres_agree.
  1: { unfold dict_remove. rewrite H. destruct (inner d2 !! k); cbn; by rewrite !lookup_delete. }
  3: { destruct nx, ea; rewrite ?dict_insert_put; cbn [fst snd].
       1: by rewrite H, !inner_put.
       all: local_get; destruct o; rewrite ?dict_insert_put, ?E; solve_local. }
  all: try local_get; cbn [fst snd]; solve_local.
Qed.

Lemma rapply_local ho now r d1 d2 : inner d1 !! rkey r = inner d2 !! rkey r ->
  rres_agree (rkey r) (rapply ho now r d1) (rapply ho now r d2).
Proof.
  intros H. destruct r; cbn [rapply rkey] in *; cmd_unfold; unfold rres_agree.
  all: unfold ttl_apply, get_last_visit_time_apply, get_visit_times_apply, raw_get; rewrite ?H.
  all: try local_get; cbn [fst snd]; solve_local.
Qed.
