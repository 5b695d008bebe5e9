(** Lemmas about serving requests. *)
From Verif Require Export SpecServer FrameFacts CmdFacts DbFacts RequestFacts ZsetInv CollFacts.

Local Arguments dict_put : simpl never.
Local Arguments touch : simpl never.

(** ** The connection loop serves the frames of the byte stream *)
Lemma handler_session fuel en clock oth chunks buf e :
  let '(fs, ce) := conn_frames fuel chunks buf in
  let '(e', rs, h) := handler fuel en clock oth chunks buf e in
  exists o, session en clock oth e fs rs e' o /\
    match o with
    | Some h' => h = h'
    | None => h = match ce with EndClean => HClean | _ => HError end
    end.
Proof.
  revert clock oth chunks buf e; induction fuel as [|fuel IH]; intros clock oth chunks buf e; cbn [conn_frames handler].
  - exists None. split; [constructor|done].
  - destruct (read_frame chunks buf) as [[[f buf'] cs]|ce].
    + specialize (IH (fun i => clock (S i)) (fun i => oth (S i)) cs buf').
      destruct (serve_frame en (clock 0%nat) (oth 0%nat) f e) as [e1 [r|h1]] eqn:E.
      * specialize (IH e1). destruct (conn_frames fuel cs buf') as [fs ce].
        destruct (handler fuel en (fun i => clock (S i)) (fun i => oth (S i)) cs buf' e1) as [[e2 rs] h].
        cbn beta iota in IH. destruct IH as (o & Hs & Ho). exists o. split; [|done]. by econstructor.
      * destruct (conn_frames fuel cs buf') as [fs ce]. exists (Some h1). split; [|done]. by constructor.
    + destruct ce; exists None; (split; [constructor|done]).
Qed.
Lemma session_length en clock oth e fs rs e' o : session en clock oth e fs rs e' o ->
  match o with None => length rs = length fs | Some _ => (length rs < length fs)%nat end.
Proof. induction 1 as [| ? ? ? ? ? ? ? ? ? h _ _ IH|]; cbn; [done| |lia]. destruct h; cbn in *; lia. Qed.
Lemma session_det en clock oth e fs rs e' o rs2 e2 o2 : session en clock oth e fs rs e' o ->
  session en clock oth e fs rs2 e2 o2 -> rs = rs2 /\ e' = e2 /\ o = o2.
Proof.
  intros H; revert rs2 e2 o2; induction H as [|clock oth e f fs e1 r rs e3 h E _ IH|clock oth e f fs e1 h E]; intros rs2 e2 o2 H2; inversion H2; subst; try done; try congruence.
  - match goal with H : serve_frame _ _ _ _ _ = _ |- _ => rewrite E in H; injection H as <- <- end. edestruct IH as (-> & -> & ->); [eassumption|]. done.
  - by match goal with H : serve_frame _ _ _ _ _ = _ |- _ => rewrite E in H; injection H as <- <- end.
Qed.

(** ** Shapes of responses *)
Lemma outcome_map_ok {A B} (f : A -> B) o b : outcome_map f o = OOk b -> exists a, o = OOk a /\ b = f a.
Proof. destruct o; cbn; try done. intros H. injection H as <-. eauto. Qed.
Lemma wapply_shape now w d r : snd (fst (wapply now w d)) = OOk r -> wshape w r.
Proof.
  destruct w; cbn [wapply wshape]; unfold no_exp; cbn [fst snd]; intros H;
    try (apply outcome_map_ok in H as (a & _ & ->); by eauto).
  - destruct (del_apply k d) as [[? ?] ?]; cbn in H. injection H as <-. eauto.
  - destruct (expire_apply now k at_ nx gl d) as [[? ?] ?]; cbn in H. injection H as <-. eauto.
  - destruct (set_apply now k x ea nx d) as [[? ?] ?]; cbn in H. injection H as <-. eauto.
  - destruct (restore_apply now r0 d) as [[? ?] ?]; cbn in H. by apply outcome_map_ok in H as (a & _ & ->).
Qed.
Lemma rapply_shape ho now c d r : snd (rapply ho now c d) = OOk r -> rshape c r.
Proof.
  destruct c; cbn [rapply rshape]; intros H;
    try (match type of H with context [let '(_, _) := ?x in _] => destruct x eqn:? end); cbn [snd] in H;
    try (apply outcome_map_ok in H as (a & -> & ->)); try (injection H as <-); try (by eauto).
  - exists a. split; [done|]. revert Heqp. unfold kvp_get_apply. destruct (dict_get now k d) as [d1 [v|]].
    + destruct (v_data v); try done. intros E. injection E as <- <-. by rewrite map_length.
    + intros E. injection E as <- <-. by rewrite repeat_length.
  - exists a. split; [done|]. revert Heqp. unfold set_exists_apply. destruct (dict_get now k d) as [d1 [v|]].
    + destruct (v_data v); try done. intros E. injection E as <- <-. by rewrite map_length.
    + intros E. injection E as <- <-. by rewrite repeat_length.
Qed.

(** ** Execution of single commands *)
Lemma db_exec_cmd ho now c b : fst (db_exec ho now c b) = fst (db_cmd ho now c b) /\
  wo_res (snd (db_exec ho now c b)) = snd (db_cmd ho now c b).
Proof.
  destruct c as [w|r]; cbn [db_exec db_cmd]; [destruct (db_write now w b)|destruct (db_read ho now r b)]; done.
Qed.
Lemma cmd_shape ho now c b r : snd (db_cmd ho now c b) = OOk r -> cshape c r.
Proof.
  destruct (db_cmd_refines_slot ho now c b) as [_ ->]. destruct c as [w|rd]; cbn [flat_cmd ckey cshape].
  - apply wapply_shape.
  - apply rapply_shape.
Qed.
Lemma run_shape ho clock oth cs e e' rs : run_cmds ho clock oth cs e = (e', AOk rs) -> Forall2 cshape cs rs.
Proof.
  revert clock oth e e' rs; induction cs as [|c cs IH]; intros clock oth e e' rs; cbn [run_cmds].
  - intros H. injection H as <- <-. constructor.
  - pose proof (db_exec_cmd ho (clock 0%nat) c (ef_db (oth 0%nat e))) as [_ R].
    destruct (db_exec ho (clock 0%nat) c (ef_db (oth 0%nat e))) as [b' o]. cbn [snd] in R.
    destruct (wo_res o) as [r|x|] eqn:E; [|done|done].
    destruct (run_cmds ho _ _ cs _) as [e2 rs'] eqn:E2. destruct rs' as [l|x|]; cbn [abind]; [|done|done].
    intros H. injection H as <- <-. constructor; [by eapply cmd_shape|]. by eapply IH.
Qed.

(** ** Scalars stay in a class *)
Lemma wrap_fits z : fits_i64 (wrap_i64 z).
Proof. unfold fits_i64, wrap_i64, z_two63, z_two64. lia. Qed.
Lemma atoi_loop_fits sgn acc n t z m : (forall a, acc = Some a -> fits_i64 a) ->
  atoi_loop sgn acc n t = (Some z, m) -> fits_i64 z.
Proof.
  revert acc n; induction t as [|b t IH]; intros acc n A; cbn [atoi_loop].
  - intros H. injection H as -> _. by apply A.
  - destruct (byte_digit b) as [d|]; [|intros H; injection H as -> _; by apply A]. apply IH.
    unfold atoi_digit, checked_i64. destruct acc as [a|]; [|done]. destruct (is_i64 (a * 10)); [|done].
    destruct (is_i64 (a * 10 + sgn * d)) eqn:E; [|done]. intros x X. injection X as <-.
    unfold is_i64, i64_min, i64_max, z_two63 in E. unfold fits_i64. lia.
Qed.
Lemma atoi_fits b z : atoi_i64 b = Some z -> fits_i64 z.
Proof.
  unfold atoi_i64. destruct (match b with [] => _ | _ :: _ => _ end) as [[sgn off] t].
  destruct (atoi_loop sgn (Some 0%Z) off t) as [[x|] [|m]] eqn:E; try done. intros H. injection H as <-.
  eapply atoi_loop_fits; [|exact E]. intros a A. injection A as <-. unfold fits_i64. lia.
Qed.
Definition all_at (P : scalar -> Prop) (d : dict) (k : bytes) : Prop := forall x e, contents d k = Some (x, e) -> data_all P x.

Lemma all_inner (P : scalar -> Prop) d k v : all_at P d k -> inner d !! k = Some v -> data_all P (v_data v).
Proof. intros A E. apply (A (v_data v) (v_exp v)). by rewrite (contents_of_inner d k v E). Qed.
Lemma all_put (P : scalar -> Prop) d k v : data_all P (v_data v) -> all_at P (dict_put k v d) k.
Proof. intros H x e. rewrite contents_put. unfold content. intros E. by injection E as <- <-. Qed.

Lemma kvp_fold_all (P : scalar -> Prop) nx es m : (forall f s, m !! f = Some s -> P s) -> Forall (fun e => P (snd e)) es ->
  forall f s, fold_left (kvp_set_entry nx) es m !! f = Some s -> P s.
Proof.
  revert m; induction es as [|[g x] es IH]; intros m M H; [done|]. cbn [fold_left].
  pose proof (Forall_inv H) as Hx. pose proof (Forall_inv_tail H) as Ht. cbn in Hx. apply IH; [|done].
  assert (I : forall f s, <[g := x]> m !! f = Some s -> P s).
  { intros f s E. apply lookup_insert_Some in E as [[_ <-]|[_ E]]; [done|by eapply M]. }
  cbn. destruct nx; [done| |]; destruct (m !! g); done.
Qed.
Lemma kvp_del_all (P : scalar -> Prop) (fs : list bytes) (m : gmap bytes scalar) : (forall f s, m !! f = Some s -> P s) ->
  forall f s, fold_left (fun m f => delete f m) fs m !! f = Some s -> P s.
Proof.
  revert m; induction fs as [|g fs IH]; intros m M; [done|]. cbn [fold_left]. apply IH.
  intros f s E. apply lookup_delete_Some in E as [_ E]. by eapply M.
Qed.
Lemma push_all_all (P : scalar -> Prop) lf es l : Forall P l -> Forall P es -> Forall P (deque_push_all lf es l).
Proof.
  unfold deque_push_all. destruct lf; revert l; induction es as [|x es IH]; intros l L H; try done; cbn [fold_left];
    pose proof (Forall_inv H); pose proof (Forall_inv_tail H); (apply IH; [|done]).
  - by constructor.
  - apply Forall_app. split; [done|]. by repeat constructor.
Qed.
Lemma take_N_all (P : scalar -> Prop) n (l : list scalar) : Forall P l -> Forall P (take_N n l).
Proof. intros H; revert n; induction H as [|x l Hx _ IH]; intros n; [constructor|]. cbn. destruct (n =? 0)%N; constructor; auto. Qed.
Lemma drop_N_all (P : scalar -> Prop) n (l : list scalar) : Forall P l -> Forall P (drop_N n l).
Proof. intros H; revert n; induction H as [|x l Hx Hl IH]; intros n; [constructor|]. cbn. destruct (n =? 0)%N; [by constructor|]. apply IH. Qed.

Lemma scalar_i64_fits (P : scalar -> Prop) s z : P s -> (forall z, P (SInteger z) -> fits_i64 z) -> scalar_as_i64 s = OOk z -> fits_i64 z.
Proof. intros Ps H. destruct s; cbn; try done; try (destruct (atoi_i64 b) eqn:E; [|done]); intros X; injection X as <-; auto. by eapply atoi_fits. by eapply atoi_fits. Qed.

Ltac all_done :=
  match goal with
  | A : all_at ?P ?d ?k |- all_at ?P ?d ?k => exact A
  | |- all_at _ (dict_put _ _ (dict_put _ _ _)) _ => rewrite put_put; all_done
  | |- all_at _ (dict_put _ _ _) _ => apply all_put; cbn [v_data with_data fresh_value touch]
  end.
Lemma wapply_all (P : scalar -> Prop) now w d : (forall z, fits_i64 z -> P (SInteger z)) ->
  write_all P w -> all_at P d (wkey w) -> all_at P (fst (fst (wapply now w d))) (wkey w).
Proof.
  intros PI W A. pose proof (fun v => all_inner P d (wkey w) v A) as AI.
  destruct w; cbn [wapply wkey write_all] in *; cmd_unfold.
  1: { unfold dict_remove. destruct (inner d !! k); cbn [fst]; intros x e; unfold contents; cbn [inner]; by rewrite lookup_delete. }
  all: try case_get; try (specialize (AI v E); change (v_data (touch now v)) with (v_data v)).
  all: cbn beta iota zeta delta [fst snd v_data fresh_value].
  all: split_matches; try all_done; try done.
  all: change (v_data (touch now ?v)) with (v_data v) in *.
  all: try (match goal with H : _ = (?d0, _) |- all_at _ ?d0 _ => rewrite ?dict_insert_put in H; injection H as <- <-; all_done end).
  all: try (match goal with H : v_data ?v = _ |- data_all _ (v_data ?v) => rewrite H; exact AI end).
  all: try exact AI.
  all: try (match goal with |- all_at _ (fst (dict_insert _ _ _)) _ => rewrite dict_insert_put; cbn [fst]; all_done end).
  all: cbn [data_all] in *; try exact I.
  all: try (apply PI; first [apply wrap_fits | exact W]).
  all: try (apply kvp_del_all; exact AI).
  all: try (apply kvp_fold_all; [first [exact AI|by intros ? ? X; rewrite lookup_empty in X]|exact W]).
  all: try (intros f' s' X; apply lookup_insert_Some in X as [[_ <-]|[_ X]];
            [apply PI; first [apply wrap_fits | exact W] | first [exact (AI _ _ X) | by rewrite lookup_empty in X]]).
  all: try (apply push_all_all; first [exact AI|exact W|constructor]).
  all: try (apply take_N_all; exact AI).
  all: try (apply drop_N_all; exact AI).
  all: try (by apply W).
Qed.

(** ** Scalars in responses *)
Lemma ho_all {A} (ho : horder) (Q : A -> Prop) (m : gmap bytes A) : horder_ok ho -> (forall k x, m !! k = Some x -> Q x) ->
  Forall (fun e => Q (snd e)) (ho A m).
Proof.
  intros H M. apply List.Forall_forall. intros [k x] I. cbn. apply (M k). apply elem_of_map_to_list.
  rewrite <- (H A m). by apply elem_of_list_In.
Qed.
Lemma rev_all (P : scalar -> Prop) l : Forall P l -> Forall P (rev l).
Proof. intros H. apply List.Forall_forall. intros x I. apply in_rev in I. by apply (proj1 (List.Forall_forall _ _) H). Qed.

Lemma wapply_resp (P : scalar -> Prop) now w d r : P SNull ->
  write_all P w -> all_at P d (wkey w) -> snd (fst (wapply now w d)) = OOk r -> resp_all P r.
Proof.
  intros PN W A. pose proof (fun v => all_inner P d (wkey w) v A) as AI.
  assert (PI : forall A (f : A -> resp) (o : outcome A), (forall a, o = OOk a -> resp_all P (f a)) -> outcome_map f o = OOk r -> resp_all P r).
  { intros B f o H E. apply outcome_map_ok in E as (a & E & ->). by apply H. }
  destruct w; cbn [wapply wkey write_all] in *; unfold no_exp; cbn [fst snd]; try (apply PI; done).
  - destruct (del_apply k d) as [[? ?] ?]. cbn. intros H. by injection H as <-.
  - destruct (expire_apply now k at_ nx gl d) as [[? ?] ?]. cbn. intros H. by injection H as <-.
  - apply PI. intros z. unfold incr_apply. destruct (dict_get now k d) as [d1 [v|]]; cbn.
    + destruct (data_as_i64 (v_data v)); cbn; try done. intros H. injection H as <-. apply wrap_fits.
    + intros H. by injection H as <-.
  - destruct (set_apply now k x ea nx d) as [[d' o] u] eqn:E. cbn. intros H. injection H as <-. cbn [resp_all].
    assert (DA : forall o : option value, (forall v, o = Some v -> data_all P (v_data v)) ->
      data_all P (match o with Some v => v_data v | None => DNull end)) by (intros [v|]; auto).
    revert E. unfold set_apply. destruct nx, ea; try case_get; rewrite ?dict_insert_put; cbn beta iota zeta;
      intros H; injection H as <- <- <-; try exact PN;
      try (apply DA; intros v' X; first [exact (AI _ X) | rewrite inner_put in X; injection X as <-; exact (AI _ E)]);
      try (exact (AI _ E)); rewrite lookup_insert; exact (AI _ E).
  - apply PI. intros z. unfold kvp_incr_apply. destruct (get_or_insert_with _ _ _ _) as [d1 v]; cbn.
    destruct (v_data v); cbn; try done. destruct (m !! f) as [s|]; cbn.
    + destruct (scalar_as_i64 s); cbn; try done. intros H. injection H as <-. apply wrap_fits.
    + intros H. by injection H as <-.
  - apply PI. intros l. unfold deque_pop_apply. case_get; [|cbn; intros H; injection H as <-; constructor].
    specialize (AI v E). change (v_data (touch now v)) with (v_data v). destruct (v_data v); cbn in *; try done.
    destruct left; cbn; intros H; injection H as <-; [by apply take_N_all|]. by apply rev_all, drop_N_all.
  - destruct (restore_apply now r0 d) as [[? ?] ?]. cbn. apply PI. done.
Qed.
Lemma rapply_resp (P : scalar -> Prop) ho now c d r : P SNull -> all_at P d (rkey c) -> snd (rapply ho now c d) = OOk r -> resp_all P r.
Proof.
  intros PN A. pose proof (fun v => all_inner P d (rkey c) v A) as AI.
  destruct c; cbn [rapply rkey] in *; cmd_unfold; try (cbn; intros H; injection H as <-; exact I);
    (case_get; [specialize (AI v E); change (v_data (touch now v)) with (v_data v)|]).
  all: try (split_matches; cbn [outcome_map snd]; try done; intros H; injection H as <-; cbn [resp_all data_all] in *; try done; fail).
  all: try (cbn [outcome_map snd]; intros H; injection H as <-; exact I).
  - destruct (v_data v); cbn in *; try done. intros H. injection H as <-. cbn. apply List.Forall_forall. intros s I.
    apply in_map_iff in I as (f & <- & _). destruct (m !! f) eqn:X; cbn; [by eapply AI|done].
  - cbn. intros H. injection H as <-. cbn. apply List.Forall_forall. intros s I. by apply repeat_spec in I as ->.
  - destruct (v_data v); cbn in *; try done. destruct (shape_rank _ _ _) as [x y]. cbn. intros H. injection H as <-. cbn.
    by apply take_N_all, drop_N_all.
Qed.

Lemma cmd_keeps_all (P : scalar -> Prop) ho now c b : (forall z, fits_i64 z -> P (SInteger z)) ->
  match c with CWrite w => write_all P w | CRead _ => True end -> db_all P b -> db_all P (fst (db_cmd ho now c b)).
Proof.
  intros PI W B k x e. destruct (decide (k = ckey c)) as [->|K].
  - destruct c as [w|rd]; cbn [ckey].
    + replace (fst (db_cmd ho now (CWrite w) b)) with (fst (db_write now w b)) by (cbn; by destruct (db_write now w b)).
      rewrite db_write_contents. apply wapply_all; [done|done|]. intros x' e'. exact (B (wkey w) x' e').
    + change (db_cmd ho now (CRead rd) b) with (db_read ho now rd b). rewrite db_read_contents. apply B.
  - rewrite db_raw_contents, db_cmd_other by done. rewrite <- db_raw_contents. apply B.
Qed.
Lemma cmd_resp_all (P : scalar -> Prop) ho now c b r : P SNull ->
  match c with CWrite w => write_all P w | CRead _ => True end -> db_all P b ->
  snd (db_cmd ho now c b) = OOk r -> resp_all P r.
Proof.
  intros PN W B. destruct (db_cmd_refines_slot ho now c b) as [_ ->]. destruct c as [w|rd]; cbn [flat_cmd ckey].
  - apply wapply_resp; [done|done|]. intros x e. exact (B (wkey w) x e).
  - apply rapply_resp; [done|]. intros x e. exact (B (rkey rd) x e).
Qed.

(** ** Every response has an answer *)
Ltac inv_shapes :=
  repeat match goal with
  | H : Forall2 _ [] _ |- _ => apply Forall2_nil_inv_l in H; subst
  | H : Forall2 _ (_ :: _) _ |- _ => apply Forall2_cons_inv_l in H as (?r & ?rs & ?H & ?H & ->)
  | H : cshape _ _ |- _ => cbn [cshape wshape rshape] in H
  | H : exists _, _ |- _ => destruct H as [? H]
  | H : _ /\ _ |- _ => destruct H
  | H : length ?l = length [_] |- _ => destruct l as [|? [|]]; [discriminate H|clear H|discriminate H]
  end; subst.
Lemma abind_ok {A B} (x : attempt A) (f : A -> attempt B) b : abind x f = AOk b -> exists a, x = AOk a /\ f a = AOk b.
Proof. destruct x; cbn; try done. eauto. Qed.
Lemma answer_total en t t' q cs rs : q <> QSyncsnapshot (match q with QSyncsnapshot s => s | _ => 0%N end) ->
  plan_of t q = AOk (PCmds cs) -> Forall2 cshape cs rs -> answer en t' q rs <> APanic.
Proof.
  intros NS H S. destruct q; cbn [plan_of] in H; try done;
    try (injection H as <-; inv_shapes; done).
  - injection H as <-. inv_shapes. cbn. destruct x as [[]| | | |]; done.
  - destruct (bool_decide (sub = bs "object")).
    + destruct ps; [done|]. injection H as <-. inv_shapes. cbn. by destruct x.
    + injection H as <-. by inv_shapes.
  - cbn [answer]. destruct (bool_decide (sub = bs "IDLETIME") || bool_decide (sub = bs "idletime")) eqn:E1.
    + destruct ps; [done|]. injection H as <-. inv_shapes. cbn [answer]. rewrite ?E1. by destruct x.
    + destruct (bool_decide (sub = bs "FREQ") || bool_decide (sub = bs "freq")); [|injection H as <-; by inv_shapes].
      destruct ps; [done|]. injection H as <-. inv_shapes. cbn [answer]. rewrite ?E1. by destruct x.
  - destruct (ro_order o); apply abind_ok in H as (a & _ & H); injection H as <-; by inv_shapes.
  - apply abind_ok in H as (a & _ & H); injection H as <-; by inv_shapes.
  - apply abind_ok in H as (a & _ & H); injection H as <-; by inv_shapes.
  - apply abind_ok in H as (a & _ & H); injection H as <-; by inv_shapes.
  - apply abind_ok in H as (a & _ & H); injection H as <-; by inv_shapes.
  - apply abind_ok in H as (a & _ & H); injection H as <-; by inv_shapes.
  - apply abind_ok in H as (a & _ & H); injection H as <-; by inv_shapes.
  - apply abind_ok in H as (a & _ & H); injection H as <-; by inv_shapes.
Qed.

(** ** Tidy replies *)
Lemma tidy_array l : tidy (FArray l) <-> Forall tidy l.
Proof. cbn. induction l as [|x l IH]; [split; constructor|]. rewrite List.Forall_cons_iff. tauto. Qed.
Lemma wire_array l : wire (FArray l) <-> Forall wire l.
Proof. cbn. induction l as [|x l IH]; [split; constructor|]. rewrite List.Forall_cons_iff. tauto. Qed.
Lemma one_line_check b : forallb not_crlf b = true -> one_line b.
Proof.
  intros H. rewrite forallb_forall in H. split; intros I; apply H, not_crlf_spec in I; tauto.
Qed.
Lemma tidy_wf f : tidy f -> (N.of_nat (length (write f)) < 2 ^ 63)%N -> wf_frame f.
Proof.
  remember (length (write f)) as n eqn:E. revert f E. induction n as [n IH] using lt_wf_ind. intros f -> T L.
  destruct f as [| |b|b|b|z| |l|]; try done.
  - cbn [wf_frame]. revert L. cbn [write]. rewrite !app_length. lia.
  - apply tidy_array in T. cbn [wf_frame]. fold (wf_all l).
    assert (W : forall x, In x l -> (length (write x) <= length (concat (map write l)))%nat) by (intros; by apply write_length_elem).
    assert (HL : (length (concat (map write l)) < length (write (FArray l)))%nat).
    { cbn [write]. rewrite !app_length. cbn. lia. }
    assert (WA : Forall wf_frame l).
    { apply List.Forall_forall. intros x I. specialize (W x I). eapply (IH (length (write x))); [lia|done| |lia].
      by apply (proj1 (List.Forall_forall _ _) T). }
    split; [|by apply wf_all_Forall].
    assert (C : (length l <= length (concat (map write l)))%nat).
    { clear -WA. induction WA as [|x l Hx _ IH]; [done|]. cbn. rewrite app_length. apply write_pos in Hx. lia. }
    lia.
Qed.
Lemma write_read_back f : write (read_back f) = write f.
Proof. by destruct f. Qed.
Lemma fits_as_i64 n : fits_i64 (u64_as_i64 n).
Proof. apply wrap_fits. Qed.
Lemma scalar_tidy en s : plain en -> printable s -> tidy (scalar_frame en s).
Proof. intros [F _]. destruct s; cbn; auto; (split; [discriminate|]; split; intros X; cbn in X; intuition discriminate). Qed.
Lemma scalars_tidy en l : plain en -> Forall printable l -> Forall tidy (map (scalar_frame en) l).
Proof. intros E H. induction H; cbn; constructor; auto. by apply scalar_tidy. Qed.
Lemma count_fits rs : fits_i64 (count_hits rs).
Proof.
  unfold count_hits. assert (H : forall z, fits_i64 z -> fits_i64 (fold_left (fun n r => match r with POptValue (Some _) | PBool true => wrap_i64 (n + 1) | _ => n end) rs z)).
  { induction rs as [|r rs IH]; intros z Z; [done|]. cbn [fold_left]. apply IH.
    destruct r as [|[]| | | | | | | | | | | | | | |[]]; auto using wrap_fits. }
  apply H. unfold fits_i64. lia.
Qed.
Lemma err_tidy en p x : plain en -> tidy (FError (err_text en p x)).
Proof.
  intros [_ B]. cbn. destruct x as [[]| | | | |[]|[]]; cbn [err_text]; try apply B; (split; [done|apply one_line_check; reflexivity]).
Qed.
Lemma ok_tidy : tidy frame_ok.
Proof. cbn. apply one_line_check. reflexivity. Qed.
Lemma bool_fits (b : bool) : fits_i64 (if b then 1 else 0).
Proof. unfold fits_i64. destruct b; lia. Qed.
Lemma info_tidy : tidy (FBulk info_text).
Proof. exact I. Qed.

Lemma answer_tidy en t t' q cs rs f : plain en -> horder_ok (e_ho en) -> ~ quoting q ->
  plan_of t q = AOk (PCmds cs) -> Forall2 cshape cs rs ->
  match q with QDel _ | QExists _ => True | _ => Forall (resp_all printable) rs end ->
  answer en t' q rs = AOk f -> f = FPong \/ tidy f.
Proof.
  intros PE HO NQ H S A. assert (PE' := PE). destruct PE' as [PF PB].
  assert (OK := ok_tidy).
  destruct q; cbn [plan_of quoting] in *; try done;
    try (injection H as <-; inv_shapes; cbn [answer]; intros E; try done; injection E as <-; 
         first [left; reflexivity | right; cbn; auto using count_fits, fits_as_i64, bool_fits; fail | idtac]).
  all: try (apply abind_ok in H as (a & _ & H); injection H as <-; inv_shapes; cbn [answer]; intros E; injection E as <-;
            right; apply fits_as_i64).
  all: try (pose proof (Forall_inv A) as A1; cbn [resp_all data_all] in A1).
  all: try (right; first [exact A1 | apply tidy_array, scalars_tidy; assumption | apply scalar_tidy; assumption
                         | destruct x; first [exact I | apply fits_as_i64] | destruct (zo_ch o); apply fits_as_i64]; fail).
  - injection H as <-. inv_shapes. pose proof (Forall_inv A) as A1. cbn [resp_all] in A1. cbn.
    destruct x as [[]| | | |]; cbn in *; try done; intros E; injection E as <-; right; cbn; auto. apply show_Z_one_line.
  - right. destruct x; try apply fits_as_i64; cbn; unfold fits_i64; lia.
  - right. destruct (so_get o); [|done]. destruct x0; cbn [data_frame data_all] in *; [by apply scalar_tidy|..];
      (cbn; split; [done|by apply one_line_check]).
  - right. destruct x; try apply fits_as_i64; cbn; unfold fits_i64; lia.
  - right. apply scalar_tidy; [done|]. by apply Forall_inv in A1.
  - right. apply tidy_array. pose proof (ho_all (e_ho en) printable x HO A1) as X.
    induction X as [|e l Xe _ IH]; cbn; [constructor|]. constructor; [exact I|]. constructor; [by apply scalar_tidy|]. exact IH.
  - destruct (bool_decide (sub = bs "object")).
    + destruct ps; [done|]. injection H as <-. inv_shapes. cbn. destruct x; [|done]. intros E. injection E as <-. auto.
    + injection H as <-. inv_shapes. cbn. intros E. injection E as <-. auto.
  - destruct (bool_decide (sub = bs "IDLETIME") || bool_decide (sub = bs "idletime")) eqn:E1.
    + destruct ps; [done|]. injection H as <-. inv_shapes. cbn [answer]. rewrite ?E1. destruct x; [|done].
      intros E. injection E as <-. right. apply fits_as_i64.
    + destruct (bool_decide (sub = bs "FREQ") || bool_decide (sub = bs "freq")).
      * destruct ps; [done|]. injection H as <-. inv_shapes. cbn [answer]. rewrite ?E1. destruct x; [|done].
        intros E. injection E as <-. right. apply fits_as_i64.
      * injection H as <-. inv_shapes. cbn. intros E. injection E as <-. auto.
  - right. apply tidy_array. clear. induction x; cbn; constructor; [apply bool_fits|done].
Qed.

(** ** What requests store *)
Definition cmd_all (P : scalar -> Prop) (c : cmd) : Prop := match c with CWrite w => write_all P w | CRead _ => True end.
Lemma plan_all (P : scalar -> Prop) t q cs : request_all P q -> plan_of t q = AOk (PCmds cs) -> Forall (cmd_all P) cs.
Proof.
  intros R H. destruct q; cbn [plan_of request_all] in *; try done;
    try (injection H as <-; repeat (apply List.Forall_cons); try apply List.Forall_nil; cbn; auto; fail);
    try (apply abind_ok in H as (a & _ & H); injection H as <-; repeat constructor; fail).
  - injection H as <-. constructor; [|constructor]. cbn. unfold fits_i64. lia.
  - injection H as <-. constructor; [|constructor]. apply wrap_fits.
  - injection H as <-. clear. induction ks; constructor; done.
  - injection H as <-. clear. induction ks; constructor; done.
  - injection H as <-. constructor; [|constructor]. cbn. unfold fits_i64. lia.
  - destruct (bool_decide (sub = bs "object")); [destruct ps; [done|]|]; injection H as <-; repeat constructor.
  - destruct (bool_decide (sub = bs "IDLETIME") || bool_decide (sub = bs "idletime"));
      [|destruct (bool_decide (sub = bs "FREQ") || bool_decide (sub = bs "freq"))];
      try (destruct ps; [done|]); injection H as <-; repeat constructor.
  - destruct (ro_order o); apply abind_ok in H as (a & _ & H); injection H as <-; repeat constructor.
Qed.

Lemma run_keeps (P : scalar -> Prop) ho clock oth cs e : (forall z, fits_i64 z -> P (SInteger z)) -> others_keep P oth ->
  Forall (cmd_all P) cs -> db_all P (ef_db e) -> db_all P (ef_db (fst (run_cmds ho clock oth cs e))).
Proof.
  intros PI. revert clock oth e. induction cs as [|c cs IH]; intros clock oth e O C D; [done|]. cbn [run_cmds].
  pose proof (db_exec_cmd ho (clock 0%nat) c (ef_db (oth 0%nat e))) as [R _].
  pose proof (cmd_keeps_all P ho (clock 0%nat) c (ef_db (oth 0%nat e)) PI (Forall_inv C) (O 0%nat e D)) as K.
  destruct (db_exec ho (clock 0%nat) c (ef_db (oth 0%nat e))) as [b' o]. cbn [fst] in R. rewrite <- R in K.
  destruct (wo_res o) as [r|x|]; cbn [fst ef_db]; try done.
  match goal with |- context [run_cmds ?h ?c ?o ?l ?x] => specialize (IH c o x); destruct (run_cmds h c o l x) end.
  apply IH; [|by eapply Forall_inv_tail|done]. intros i e'. apply (O (S i)).
Qed.
Lemma run_resp (P : scalar -> Prop) ho clock oth cs e e' rs : (forall z, fits_i64 z -> P (SInteger z)) -> P SNull -> others_keep P oth ->
  Forall (cmd_all P) cs -> db_all P (ef_db e) -> run_cmds ho clock oth cs e = (e', AOk rs) -> Forall (resp_all P) rs.
Proof.
  intros PI PN. revert clock oth e e' rs. induction cs as [|c cs IH]; intros clock oth e e' rs O C D; cbn [run_cmds].
  - intros H. injection H as <- <-. constructor.
  - pose proof (db_exec_cmd ho (clock 0%nat) c (ef_db (oth 0%nat e))) as [R R2].
    pose proof (cmd_keeps_all P ho (clock 0%nat) c (ef_db (oth 0%nat e)) PI (Forall_inv C) (O 0%nat e D)) as K.
    pose proof (fun r => cmd_resp_all P ho (clock 0%nat) c (ef_db (oth 0%nat e)) r PN (Forall_inv C) (O 0%nat e D)) as Q.
    destruct (db_exec ho (clock 0%nat) c (ef_db (oth 0%nat e))) as [b' o]. cbn [fst snd] in *. rewrite <- R in K. rewrite <- R2 in Q.
    destruct (wo_res o) as [r|x|]; try done.
    match goal with |- context [run_cmds ?h ?c ?o ?l ?x] => specialize (IH c o x); destruct (run_cmds h c o l x) as [e2 rs2] end.
    destruct rs2 as [l|x|]; cbn [abind]; try done. intros H. injection H as <- <-. constructor; [by apply Q|].
    eapply IH; [|by eapply Forall_inv_tail|done|done]. intros i e1. apply (O (S i)).
Qed.
Lemma flushall_all (P : scalar -> Prop) b : db_all P (db_flushall b).
Proof. intros k x e. by rewrite db_raw_contents, flushall_empty. Qed.

Lemma serve_keeps (P : scalar -> Prop) en clock oth q e : (forall z, fits_i64 z -> P (SInteger z)) -> others_keep P oth ->
  request_all P q -> db_all P (ef_db e) -> db_all P (ef_db (fst (serve_request en clock oth q e))).
Proof.
  intros PI O R D. pose proof (plan_all P (clock 0%nat) q) as PA.
  destruct q; try exact D; unfold serve_request;
    (destruct (plan_of _ _) as [[cs|]| |]; [|cbn; apply flushall_all|exact D|exact D]);
    specialize (PA cs R eq_refl);
    pose proof (run_keeps P (e_ho en) (fun i => clock (S i)) oth cs e PI O PA D) as K;
    destruct (run_cmds (e_ho en) _ oth cs e); exact K.
Qed.
Lemma printable_int z : fits_i64 z -> printable (SInteger z).
Proof. done. Qed.
Lemma serve_tidy en clock oth q e e' f : plain en -> horder_ok (e_ho en) -> ~ quoting q -> others_keep printable oth ->
  request_all printable q -> db_all printable (ef_db e) ->
  serve_request en clock oth q e = (e', inl f) -> f = FPong \/ tidy f.
Proof.
  intros PE HO NQ O R D H. pose proof (plan_all printable (clock 0%nat) q) as PA.
  assert (C : (exists s, q = QSyncsnapshot s) \/ serve_request en clock oth q e =
      (let fail x := inl (FError (err_text en (payload_of q) x)) in
      match plan_of (clock 0%nat) q with
      | AErr x => (e, fail x)
      | APanic => (e, inr HPanic)
      | AOk PFlush => (Effects (db_flushall (ef_db e)) (ef_exp e) (ef_fwd e), inl frame_ok)
      | AOk (PCmds cs) =>
          let '(e', rs) := run_cmds (e_ho en) (fun i => clock (S i)) oth cs e in
          (e', match abind rs (answer en (clock (S (length cs))) q) with
               | AOk f => inl f
               | AErr x => fail x
               | APanic => inr HPanic
               end)
      end)) by (destruct q; eauto).
  destruct C as [[s ->]|C]; [done|]. rewrite C in H. clear C. cbn zeta in H.
  destruct (plan_of (clock 0%nat) q) as [[cs|]|x|] eqn:EP.
  - specialize (PA cs R eq_refl). destruct (run_cmds (e_ho en) _ oth cs e) as [e1 rs] eqn:ER. injection H as _ H.
    destruct rs as [l|x|]; cbn [abind] in H; [|injection H as <-; right; by apply err_tidy|done].
    destruct (answer en _ q l) as [g|x|] eqn:EA; [|injection H as <-; right; by apply err_tidy|done]. injection H as <-.
    eapply answer_tidy; [exact PE|exact HO|exact NQ|exact EP|by eapply run_shape| |exact EA].
    pose proof (run_resp printable _ _ _ _ _ _ _ printable_int I O PA D ER) as Q. by destruct q.
  - injection H as _ <-. right. apply ok_tidy.
  - injection H as _ <-. right. by apply err_tidy.
  - done.
Qed.
