(** Type errors and failed commands have no effect. *)
From Verif Require Export SimpleFacts SpecCmd.

Local Arguments dict_put : simpl never.

Lemma same_contents_touch now k v d :
  inner d !! k = Some v -> same_contents d (dict_put k (touch now v) d).
Proof. intros E. apply same_contents_put. unfold contents. by rewrite E. Qed.

Lemma wapply_wrong_type now w d x e kd :
  view now d (wkey w) = Some (x, e) -> wkind w = Some kd -> kind_of x <> kd ->
  exists d', wapply now w d = (d', OErr EWrongType, None) /\ same_contents d d'.
Proof.
  intros V K N.
  destruct w; cbn [wkind wkey wapply] in *; try done; injection K as <-; cmd_unfold; case_get;
    try congruence; rewrite V in V0; injection V0 as -> ->;
    cbn [touch v_data] in *;
    (destruct (v_data v) as [[]| | | |] eqn:D; cbn in N; try done;
     (eexists; split; [reflexivity|by apply same_contents_touch])).
Qed.

Lemma rapply_wrong_type ho now r d x e kd :
  view now d (rkey r) = Some (x, e) -> rkind r = Some kd -> kind_of x <> kd ->
  snd (rapply ho now r d) = OErr EWrongType.
Proof.
  intros V K N.
  destruct r; cbn [rkind rkey rapply] in *; try done; injection K as <-; cmd_unfold; case_get;
    try congruence; rewrite V in V0; injection V0 as -> ->;
    cbn [touch v_data] in *;
    (destruct (v_data v) as [[]| | | |] eqn:D; cbn in N; try done).
Qed.

Lemma wapply_error_same now w d d' er u :
  wapply now w d = (d', OErr er, u) -> same_contents d d'.
Proof.
  destruct w; cbn [wapply]; cmd_unfold; unfold dict_remove.
  all: try (destruct (inner d !! k) as [v|]; cbn; intros H; discriminate H).
  all: try case_get; cbn [fst snd touch v_data fresh_value with_data].
  all: repeat split_match; cbn [fst snd outcome_map]; intros H; try discriminate H; injection H; intros;
       subst; try apply same_contents_refl; try (by apply same_contents_touch).
  by rewrite lookup_empty in Heqo.
Qed.

(** On an absent (or expired) key nothing is of the wrong type. *)
Lemma wapply_absent_no_type_error now w d :
  view now d (wkey w) = None -> snd (fst (wapply now w d)) <> OErr EWrongType.
Proof.
  intros V.
  destruct w; cbn [wapply wkey] in *; cmd_unfold; unfold dict_remove.
  all: try (destruct (inner d !! k); done).
  all: rewrite ?(dict_get_none _ _ _ V), ?(goi_none _ _ _ _ V).
  all: cbn [fst snd fresh_value v_data outcome_map].
  all: try (destruct nx, ea; rewrite ?(dict_get_none _ _ _ V), ?dict_insert_put; cbn; done).
  all: rewrite ?lookup_empty; repeat split_match; cbn [fst snd outcome_map]; try done.
  unfold deserialize in *. destruct (get_data (r_value r)); congruence.
Qed.

Lemma rapply_absent_no_type_error ho now r d :
  view now d (rkey r) = None -> snd (rapply ho now r d) <> OErr EWrongType.
Proof.
  intros V.
  destruct r; cbn [rapply rkey] in *; cmd_unfold.
  all: rewrite ?(dict_get_none _ _ _ V); done.
Qed.

(** The right type is never refused: type errors occur only on a visible value of another kind, or when a
    counter command meets a scalar that is no text and no integer. *)
Lemma wapply_type_error_only now w d d' u :
  wapply now w d = (d', OErr EWrongType, u) ->
  exists x e kd, view now d (wkey w) = Some (x, e) /\ wkind w = Some kd /\
    (kind_of x <> kd \/ (match w with WIncr _ _ | WKvpIncr _ _ _ => True | _ => False end)).
Proof.
  intros H.
  assert (V : view now d (wkey w) <> None).
  { intros V. apply (wapply_absent_no_type_error now w d V). by rewrite H. }
  destruct (view now d (wkey w)) as [[x e]|] eqn:E; [clear V|done].
  exists x, e.
  destruct w; cbn [wkind wkey wapply] in *; cmd_unfold; unfold dict_remove in *.
  all: try (eexists; split; [reflexivity|]; split; [reflexivity|]; by right).
  all: match goal with
       | H : context [dict_get ?now ?k ?d] |- _ => destruct (dict_get_case now k d) as [v EE A V|V]
       | H : context [get_or_insert_with ?now ?k ?f ?d] |- _ => destruct (goi_cases now k f d) as [v EE A V|V]
       | _ => idtac end.
  all: try congruence.
  all: try (rewrite E in V; injection V as -> ->).
  all: cbn [touch v_data] in H.
  all: try (eexists; split; [reflexivity|]; split; [reflexivity|]; left;
            destruct (v_data v); cbn in H |- *; try discriminate;
            repeat case_match; discriminate).
  all: exfalso.
  all: cbn in H; repeat case_match; simplify_eq/=; try discriminate.
  all: unfold deserialize in *; repeat case_match; simplify_eq/=; try discriminate.
Qed.
