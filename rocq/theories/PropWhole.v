(** C110: the whole server refines the store machine, without conditions on requests or states. *)
From Verif Require Import SpecWhole PropTwo PropTalk PropParts MeaningFacts CollFacts SimpleFacts TypeFacts SerdeFacts DbFacts VisitFacts TextFacts ClientsFacts PropClients PropFrame ZsetInv.
From Verif Require PropTree.

(** ** Texts *)
Definition agrees {A} (en : env) (a : attempt A) (r : reading A) : Prop :=
  match r with
  | Reads b => a = AOk b
  | Refused P => exists x, a = AErr x /\ P (FError (err_text en [] x))
  | Kills => a = APanic
  end.
Lemma nth_is {A} (l : list A) i : nth_error l i = l !! i.
Proof. revert i; induction l as [|a l IH]; intros [|i]; try done. cbn. apply IH. Qed.
Lemma inside_splits i t : splits_char i t = inside_char i t.
Proof.
  unfold splits_char, inside_char. rewrite nth_is. destruct (t !! i) as [b|]; [|done]. unfold cont, in_range.
  destruct (Byte.to_N b <=? 191)%N eqn:E, (Byte.to_N b <? 192)%N eqn:F; try done; lia.
Qed.
Lemma agrees_map {A B} en (f : A -> B) a r : agrees en a r -> agrees en (abind a (fun x => AOk (f x))) (read_map f r).
Proof. destruct r; cbn; [by intros ->|intros (x & -> & H); by exists x|by intros ->]. Qed.
Lemma agrees_both {A} en (f : bytes -> attempt A) t u r s : agrees en (f t) r -> agrees en (f u) s -> agrees en (two f t u) (both r s).
Proof.
  unfold two. intros H1 H2. destruct r as [a|P|]; cbn [agrees both] in *.
  - rewrite H1. cbn [abind]. by apply (agrees_map en (pair a)).
  - destruct H1 as (x & -> & H). by exists x.
  - by rewrite H1.
Qed.
Lemma digits_not_empty neg t : forall acc, int_digits neg acc t <> inr IntEmpty.
Proof. induction t as [|b t IH]; intros acc; cbn; [done|]. destruct (byte_digit b); [|done]. destruct (_ && _); [apply IH|by destruct neg]. Qed.
Lemma parse_not_empty t : t <> [] -> parse_i64 t <> inr IntEmpty.
Proof.
  destruct t as [|b t]; [done|]. intros _. unfold parse_i64.
  destruct (byte_eq_dec b x2b); [destruct t; [done|apply digits_not_empty]|]. destruct (byte_eq_dec b x2d); [destruct t; [done|apply digits_not_empty]|]. apply digits_not_empty.
Qed.
Lemma place_agrees en t r : place_read t r -> agrees en (int_of t) r.
Proof.
  intros H. destruct H as [t z H| |t NE H].
  - by apply int_read.
  - by exists (SIntErr IntEmpty).
  - unfold int_of. pose proof (parse_not_empty t NE) as PN. destruct (parse_i64 t) as [z|er] eqn:E; [by apply parse_i64_iff, H in E|].
    exists (SIntErr er). split; [done|]. eexists. split; [reflexivity|]. destruct er; cbn; tauto.
Qed.
Lemma place_total t : exists r, place_read t r.
Proof.
  destruct (parse_i64 t) as [z|er] eqn:E; [eexists; apply pr_number; by apply parse_i64_iff|].
  destruct t as [|b t]; [eexists; apply pr_empty|]. eexists. apply pr_other; [done|]. intros z Z. apply parse_i64_iff in Z. congruence.
Qed.
Lemma score_value_agrees en c t : agrees en (abind (float_of t) (fun x => AOk (c x))) (score_value c t).
Proof.
  unfold float_of, score_value. destruct (parse_f64 t) as [x|]; [done|]. cbn. eexists. split; [reflexivity|].
  destruct t; cbn; [done|]. done.
Qed.
Lemma score_agrees en t : agrees en (float_bound t) (score_read_as t).
Proof.
  unfold float_bound, score_read_as. rewrite inside_splits.
  destruct (inside_char 3 t) eqn:I.
  - unfold inside_char in I. destruct (t !! 3) as [b|] eqn:L; [|done]. apply lookup_lt_Some in L. by replace (4 <=? length t) with true by (symmetry; apply Nat.leb_le; lia).
  - rewrite andb_false_r. destruct t as [|b t]; [apply score_value_agrees|].
    destruct (byte_eq_dec b x28) as [->|N]; [apply score_value_agrees|].
    destruct b; try apply score_value_agrees. done.
Qed.
Lemma name_agrees en t : agrees en (lex_bound t) (name_read_as t).
Proof.
  unfold lex_bound, name_read_as. destruct t as [|b t]; [by exists SBound|]. rewrite inside_splits.
  destruct (inside_char 1 (b :: t)); [done|]. 
  destruct (byte_eq_dec b x2d) as [->|N1]; [done|]. destruct (byte_eq_dec b x2b) as [->|N2]; [done|]. destruct (byte_eq_dec b x28) as [->|N3]; [done|].
  destruct b; done.
Qed.

(** ** Requests about sorted sets *)
Lemma ordered_turned {A} rv (r : A * A) : ordered rv r = turned rv r.
Proof. by destruct rv. Qed.
Lemma asks_plan en q k ro rep now : two_asks en q k ro rep ->
  agrees en (plan_of now q) (read_map (fun o => PCmds [two_cmd k o]) ro).
Proof.
  intros Q. destruct Q; cbn [plan_of]; try done; try match goal with H : ro_order _ = _ |- _ => rewrite H end.
  all: match goal with |- agrees ?e (abind (two ?f ?t ?u) _) (read_map _ (read_map _ ?b)) =>
         let A := fresh in assert (A : agrees e (two f t u) b)
           by (apply agrees_both; first [by apply place_agrees|apply score_agrees|apply name_agrees]);
         destruct b as [[]|P|]; cbn [read_map agrees] in *; [rewrite A|destruct A as (x & -> & A); by exists x|by rewrite A] end.
  all: cbn [abind two_cmd fst snd]; rewrite ?ordered_turned; done.
Qed.
Lemma score_fits_as t b : score_read_as t = Reads b -> valid_bound b.
Proof.
  intros H. pose proof (score_agrees (Env horder_default (fun _ => []) (fun _ => [])) t) as A. rewrite H in A. cbn in A. apply C34_request_bounds in A. by destruct b.
Qed.
Lemma both_reads {A} (r s : reading A) p : both r s = Reads p -> r = Reads (fst p) /\ s = Reads (snd p).
Proof. destruct r as [a| |]; cbn; [|done|done]. destruct s as [b| |]; cbn; [|done|done]. by intros [= <-]. Qed.
Lemma asks_fits en q k ro rep o : two_asks en q k ro rep -> ro = Reads o -> two_fits o.
Proof.
  intros Q. destruct Q; intros E; try (injection E as <-; exact I).
  all: match type of E with read_map _ ?b = _ => destruct b as [p| |] eqn:B; [|done|done] end; cbn [read_map] in E; injection E as <-; try exact I.
  all: apply both_reads in B as [B1 B2]; apply score_fits_as in B1, B2; cbn [two_fits]; try done.
  by destruct (ro_rev o0).
Qed.
Lemma asks_answer en q k ro rep o s now r : two_asks en q k ro rep -> ro = Reads o -> snd (two_step o s) = OOk r -> answer en now q [r] = AOk (rep r).
Proof.
  intros Q E H. 
  assert (NS : forall l, r = PNodes l -> nodes_frame en false l = nodes_reply en false (PNodes l)) by done.
  destruct Q; try match type of E with read_map _ ?b = _ => destruct b as [p| |] eqn:B; [|done|done] end; cbn [read_map] in E; injection E as <-.
  - exact (two_answer en (QZadd k o0 ns) k _ _ s now r (tq_add en k o0 ns) H).
  - exact (two_answer en _ k _ _ s now r (tq_rem en k ms) H).
  - exact (two_answer en _ k _ _ s now r (tq_rank en k m) H).
  - exact (two_answer en _ k _ _ s now r (tq_revrank en k m) H).
  - destruct s as [t0|]; cbn [two_step snd] in H; by injection H as <-.
  - destruct s as [t0|]; cbn [two_step snd] in H; by injection H as <-.
  - destruct s as [t0|]; cbn [two_step snd] in H; [case_match; [done|]|]; by injection H as <-.
  - destruct s as [t0|]; cbn [two_step snd] in H; [case_match; [done|]|]; by injection H as <-.
  - destruct s as [t0|]; cbn [two_step snd] in H; [case_match; [done|]|]; by injection H as <-.
  - destruct s as [t0|]; cbn [two_step snd] in H; [case_match; [done|]|]; by injection H as <-.
  - destruct s as [t0|]; cbn [two_step snd] in H; [case_match; [done|]|]; by injection H as <-.
  - destruct s as [t0|]; cbn [two_step snd] in H; [case_match; [done|]|]; by injection H as <-.
  - exact (two_answer en _ k _ _ s now r (tq_remrank en k a b) H).
  - destruct s as [t0|]; cbn [two_step snd] in H; [|by injection H as <-]. case_match; [done|]. cbn [snd] in H.
    unfold remove_nodes in H. repeat case_match; try done; injection H as <-; cbn [answer removed_reply]; by rewrite len_counted.
  - destruct s as [t0|]; cbn [two_step snd] in H; [|by injection H as <-]. case_match; [done|]. cbn [snd] in H.
    unfold remove_nodes in H. repeat case_match; try done; injection H as <-; cbn [answer removed_reply]; by rewrite len_counted.
Qed.
Lemma asks_not_snapshot en q k ro rep s : two_asks en q k ro rep -> q <> QSyncsnapshot s.
Proof. by destruct 1. Qed.
Lemma asks_payload en q k ro rep : two_asks en q k ro rep -> payload_of q = [].
Proof. by destruct 1. Qed.

(** Where the plan fails nothing happens. *)
Lemma serve_fails en clock oth q e x : payload_of q = [] -> (forall s, q <> QSyncsnapshot s) -> plan_of (clock 0%nat) q = AErr x ->
  serve_request en clock oth q e = (e, inl (FError (err_text en [] x))).
Proof. intros H N E. unfold serve_request. rewrite E, H. by destruct q. Qed.
Lemma serve_kills en clock oth q e : (forall s, q <> QSyncsnapshot s) -> plan_of (clock 0%nat) q = APanic ->
  serve_request en clock oth q e = (e, inr HPanic).
Proof. intros N E. unfold serve_request. rewrite E. by destruct q. Qed.

(** ** One request *)
(** [does] (SpecMeaning.v) with fates, for a request served alone. *)
Definition befalls (en : env) (clock : nat -> N) (q : request) (e : effects) (k : bytes) (y : option (data * N)) (P : fate -> Prop) : Prop :=
  exists e' r, serve_request en clock alone q e = (e', r) /\ P r /\ db_view (clock 1%nat) (ef_db e') k = y /\
    forall j, j <> k -> db_raw (ef_db e') j = db_raw (ef_db e) j.
Lemma does_befalls en clock q e k y P : does en clock alone q e k y P -> befalls en clock q e k y (replied P).
Proof. intros (e' & r & S & R & V & O). by exists e', (inl r). Qed.

Theorem C110_key en clock q e k y y' P : horder_ok (e_ho en) ->
  fate_key en read_int (clock 0%nat) (clock 1%nat) q k y y' P -> db_view (clock 1%nat) (ef_db e) k = y -> befalls en clock q e k y' P.
Proof.
  intros HO F B. destruct F as [q k y y' P M|q k o rep s d A N I|q k o rep x d A K|q k P rep y A|q k rep y A|k y|k ttl v o y D R].
  - apply does_befalls. by eapply C107_key.
  - assert (PL : plan_of (clock 0%nat) q = AOk (PCmds [two_cmd k o])) by exact (asks_plan en q k _ rep (clock 0%nat) A).
    assert (F : two_fits o) by (by eapply asks_fits).
    assert (K : ckey (two_cmd k o) = k) by (by destruct o). assert (NP : no_peek (two_cmd k o) = true) by (by destruct o).
    assert (Sim : forall dd, lives (clock 1%nat) d -> contents dd (ckey (two_cmd k o)) = stored two_data d s ->
       contents (fst (flat_cmd (e_ho en) (clock 1%nat) (two_cmd k o) dd)) (ckey (two_cmd k o)) = stored two_data d (fst (two_step o s)) /\
       snd (flat_cmd (e_ho en) (clock 1%nat) (two_cmd k o) dd) = snd (two_step o s)).
    { rewrite K. intros dd L C. by destruct (two_sim k (e_ho en) (clock 1%nat) o dd d s F I L N C) as (H1 & H2 & _). }
    rewrite <- K in B. destruct (serve_any en clock alone q e _ PL) as [S1 S2].
    destruct (view_sim two_data (e_ho en) (clock 1%nat) _ (ef_db e) s _ d (snd (two_step o s)) NP B N Sim) as [V RR]. change (alone 0%nat e) with e in S1, S2. rewrite RR in S2.
    unfold befalls. destruct (serve_request en clock alone q e) as [e' out]. cbn [fst snd] in S1, S2. subst out.
    eexists e', _. split; [reflexivity|]. rewrite S1. rewrite K in V. split; [|split; [exact V|intros j J; apply db_cmd_other; by rewrite K]].
    destruct (snd (two_step o s)) as [r|er|] eqn:ER; [|by apply two_no_error in ER|done].
    by rewrite (asks_answer en q k _ rep o s (clock 2%nat) r A eq_refl ER).
  - assert (PL : plan_of (clock 0%nat) q = AOk (PCmds [two_cmd k o])) by exact (asks_plan en q k _ rep (clock 0%nat) A).
    assert (CK : ckey (two_cmd k o) = k) by (by destruct o).
    apply does_befalls. rewrite <- CK at 1. rewrite <- CK in B. eapply (does_flat _ _ _ _ _ (two_cmd k o) (Some (x, d)) _ (OErr EWrongType)); [done|done| |].
    + assert (KD : match two_cmd k o with CWrite w => wkind w | CRead r => rkind r end = Some KZset) by (by destruct o).
      intros dd V. destruct (two_cmd k o) as [w|r]; cbn [ckey flat_cmd] in *.
      * destruct (wapply_wrong_type _ _ _ _ _ _ V KD K) as (d' & -> & S). cbn [fst snd]. split; [|done]. rewrite <- V. by apply view_same.
      * split; [|by apply (rapply_wrong_type _ _ _ _ x d KZset)]. rewrite <- V. apply view_same, rapply_same.
    + cbn [MeaningFacts.answered]. by rewrite (asks_payload _ _ _ _ _ A).
  - destruct (asks_plan en q k _ rep (clock 0%nat) A) as (x & PL & H).
    rewrite <- B. eexists e, _. split; [eapply serve_fails; [by eapply asks_payload|intros s; by eapply asks_not_snapshot|exact PL]|]. done.
  - pose proof (asks_plan en q k _ rep (clock 0%nat) A) as PL.
    rewrite <- B. eexists e, _. split; [eapply serve_kills; [intros s; by eapply asks_not_snapshot|exact PL]|]. done.
  - destruct (serve_any en clock alone (QDump k) e (CRead (RDump k)) eq_refl) as [S1 S2]. change (alone 0%nat e) with e in S1, S2.
    destruct (db_cmd_refines_slot (e_ho en) (clock 1%nat) (CRead (RDump k)) (ef_db e)) as [C R].
    unfold befalls. destruct (serve_request en clock alone (QDump k) e) as [e' o]. cbn [fst snd] in S1, S2. subst o.
    assert (V : db_view (clock 1%nat) (ef_db e') k = y).
    { rewrite S1, <- B. unfold db_view, view. unfold db_contents in C. cbn [ckey rkey] in C. rewrite C.
      cbn [flat_cmd]. destruct (rapply_same (e_ho en) (clock 1%nat) (RDump k) (ef_db e (get_slot k))) as [_ K]. by rewrite K. }
    assert (O : forall j, j <> k -> db_raw (ef_db e') j = db_raw (ef_db e) j) by (intros j J; rewrite S1; by apply db_cmd_other).
    destruct y as [[x d]|].
    + apply view_raw in B as (v & RV & AL & <- & _).
      pose proof (dump_reply (e_ho en) (clock 1%nat) k _ v RV AL) as D. cbn [db_cmd]. rewrite D.
      eexists e', _. split; [reflexivity|]. split; [|done]. eexists. split; [reflexivity|]. intros FX. by apply (payload_data (e_ho en) (touch (clock 1%nat) v)).
    + pose proof (dump_absent (e_ho en) (clock 1%nat) k _ B) as D. cbn [db_cmd]. rewrite D.
      eexists e', _. split; [reflexivity|]. split; [reflexivity|]. split; [exact V|exact O].
  - set (r := restore_request (clock 0%nat) k ttl v o).
    destruct (serve_any en clock alone (QRestore k ttl v o) e (CWrite (WRestore r)) eq_refl) as [S1 S2]. change (alone 0%nat e) with e in S1, S2.
    destruct (db_cmd_refines_slot (e_ho en) (clock 1%nat) (CWrite (WRestore r)) (ef_db e)) as [C RR]. cbn [ckey wkey flat_cmd wapply] in C, RR.
    assert (RA : forall d, view (clock 1%nat) d k = y -> snd (fst (restore_apply (clock 1%nat) r d)) = OPanic /\ same_contents d (fst (fst (restore_apply (clock 1%nat) r d)))).
    { intros d V. destruct (restore_malformed (clock 1%nat) r d) as (_ & SC & _); [unfold r; cbn; by rewrite D|]. split; [|exact SC].
      assert (RV : r_value r = v) by done. assert (RP : r_replace r = re_replace o) by done. assert (RK : r_key r = k) by done.
      unfold restore_apply. rewrite RV, RP, RK, D. destruct R as [->| ->].
      - destruct (dict_get _ _ _) as [d1 [vv|]]; done.
      - rewrite (dict_get_none _ _ _ V). done. }
    set (d := snd (next_id (ef_db e (get_slot k)))) in *. assert (V : view (clock 1%nat) d k = y) by exact B. destruct (RA d V) as [R1 R2].
    change (get_slot (r_key r)) with (get_slot k) in C, RR. change (r_key r) with k in C, RR. fold d in C, RR.
    destruct (restore_apply (clock 1%nat) r d) as [[d' q] u]. cbn [fst snd] in *. subst q. rewrite RR in S2. 
    unfold befalls. destruct (serve_request en clock alone (QRestore k ttl v o) e) as [e' oo]. cbn [fst snd] in S1, S2. subst oo.
    eexists e', _. split; [reflexivity|]. split; [done|]. rewrite S1. split; [|intros j J; by apply db_cmd_other].
    rewrite <- V. unfold db_view, view. unfold db_contents in C. rewrite C. destruct R2 as [_ R2]. by rewrite R2.
Qed.
Print Assumptions C110_key.

(** ** Conversations *)
Lemma fates_served en clock q e t m m1 P : horder_ok (e_ho en) -> shows t (ef_db e) m -> (t <= clock 1%nat)%N ->
  fates en read_int (clock 0%nat) (clock 1%nat) q (later (clock 1%nat) m) m1 P ->
  exists e' r, serve_request en clock alone q e = (e', r) /\ P r /\ shows (clock 1%nat) (ef_db e') m1.
Proof.
  intros HO S L M. pose proof (shows_later _ _ _ _ L S) as S1. set (t1 := clock 1%nat) in *.
  remember (later t1 m) as m2 eqn:HM.
  destruct M as [q k m0 y P F|q m0 m' P M|s m0|m0|sub m0 H|sub m0 H|m0|m0].
  - assert (B : db_view t1 (ef_db e) k = m0 k) by (rewrite HM; apply S; lia).
    destruct (C110_key en clock q e k _ _ _ HO F B) as (e' & r & E & R & V & O). exists e', r. split; [done|]. split; [done|].
    intros t' j L'. unfold update, later at 1. destruct (decide (j = k)) as [->|J].
    + fold t1 in V. rewrite (view_later t1) by done. by rewrite V.
    + rewrite (raw_view t' (ef_db e') (ef_db e)); [|by apply O]. by apply S1.
  - rewrite HM in M. destruct (means_served en clock q e t m m' P HO S L M) as (e' & r & E & R & SH). by exists e', (inl r).
  - eexists e, _. done.
  - eexists e, _. done.
  - eexists e, _. split; [|done]. unfold serve_request. cbn [plan_of]. 
    repeat (apply elem_of_cons in H as [->|H]; [done|]). by apply elem_of_nil in H.
  - eexists e, _. split; [|done]. unfold serve_request. cbn [plan_of]. 
    repeat (apply elem_of_cons in H as [->|H]; [done|]). by apply elem_of_nil in H.
  - eexists e, _. done.
  - eexists e, _. done.
Qed.

(** *** Every request is explained *)
Definition orderly_at (y : option (data * N)) : Prop := forall x d, y = Some (x, d) -> orderly_value x.
Lemma orderly_update k y m : orderly m -> orderly_at y -> orderly (update k y m).
Proof. intros N Y j x d. unfold update. destruct (decide (j = k)); [apply Y|apply N]. Qed.
Lemma orderly_later t m : orderly m -> orderly (later t m).
Proof.
  intros N k x d H. unfold later, while_alive in H. destruct (m k) as [[z dl]|] eqn:E; [|done]. destruct (decide _); [|done].
  injection H as -> ->. by eapply N.
Qed.
Lemma orderly_stored {S} (enc : S -> data) d s : (forall x, s = Some x -> orderly_value (enc x)) -> orderly_at (stored enc d s).
Proof. intros H x dl E. destruct s as [z|]; [|done]. injection E as <- <-. by apply H. Qed.
Lemma orderly_zset z : no_nans z -> orderly_value (zset_data z).
Proof.
  intros N. exact (proj2 (C109_agreeing z N)).
Qed.
Lemma two_stays o s : two_fits o -> two_ok s -> two_ok (fst (two_step o s)).
Proof.
  intros F I. destruct s as [t|].
  - refine (proj2 (proj2 (proj2 (two_sim [] horder_default 0%N o (Dict 0 {[[] := Value (two_data t) 0%N 0]}) 0%N (Some t) F I (or_introl eq_refl) (fun _ => eq_refl) _)))).
    unfold contents. cbn [inner]. by rewrite lookup_singleton.
  - by refine (proj2 (proj2 (proj2 (two_sim [] horder_default 0%N o dict_empty 0%N None F I (or_introl eq_refl) (fun _ => eq_refl) _)))).
Qed.
Lemma orderly_alive t x d : orderly_value x -> orderly_at (while_alive t x d).
Proof. intros N z dl H. unfold while_alive in H. destruct (decide _); [|done]. by injection H as <- _. Qed.
Lemma orderly_restored v x : deserialize get_data v = OOk x -> orderly_value x.
Proof.
  unfold deserialize. destruct (get_data v) as [y r'| |] eqn:GD; try done. intros H. apply PropTree.get_data_ok in GD.
  injection H as ->. destruct x as [| | | |h l]; try done. exact (proj1 GD).
Qed.
Lemma orderly_means_key en num t0 t1 q k y y' P : orderly_at y -> means_key en num t0 t1 q k y y' P -> orderly_at y'.
Proof.
  intros N M.
  assert (R : forall (ms : list bytes) (d : BinNums.N) (m : option (gmap bytes f64)), (forall x, m = Some x -> no_nans x) -> orderly_at (stored zset_data d (without_members ms <$> m))).
  { intros ms d m H. apply orderly_stored. intros x X. destruct m as [z|]; [|done]. injection X as <-. apply orderly_zset, no_nans_filter. by apply H. }
  destruct M; try exact N; try (by apply orderly_stored); try (by apply R); try (by apply orderly_alive); try (by intros ? ? [= <- <-]); try done.
  - apply R. intros x X. by apply H1.
  - intros x dl X. injection X as <- <-. apply orderly_zset. subst new. apply zadd_no_nans; [by apply List.Forall_map|].
    cbn [fst]. destruct m as [z|]; [by apply H2|apply no_nans_empty].
  - destruct (set_stores _ _); [by apply orderly_alive|done].
  - destruct y as [[x d]|]; [|done]. destruct acts; [|done]. apply orderly_alive. by apply (N x d).
  - apply orderly_alive. by eapply orderly_restored.
Qed.
Lemma orderly_fate_key en num t0 t1 q k y y' P : orderly_at y -> fate_key en num t0 t1 q k y y' P -> orderly_at y'.
Proof.
  intros N M. destruct M; try exact N.
  - by eapply orderly_means_key.
  - apply orderly_stored. intros x X. change (two_ok (Some x)). rewrite <- X. apply two_stays; [by eapply asks_fits|done].
Qed.
Lemma orderly_fates en num t0 t1 q m m1 P : orderly m -> fates en num t0 t1 q m m1 P -> orderly m1.
Proof.
  intros N M. destruct M as [q k m y P F|q m m' P M|s m|m|sub m H|sub m H|m|m]; try done.
  - apply orderly_update; [done|]. eapply orderly_fate_key; [|exact F]. intros x d. apply N.
  - inversion M; subst; try done. apply orderly_update; [done|]. eapply orderly_means_key; [|eassumption]. intros x d. apply N.
Qed.

(** The requests about sorted sets are all of those in [two_asks]. *)
Lemma asks_total en q k : works_on q = Some (k, KZset) -> exists r rep, two_asks en q k r rep.
Proof.
  destruct q; cbn [works_on]; intros H; try discriminate H; injection H as ->.
  - eexists _, _. apply ta_add.
  - destruct (ro_order o) eqn:RO; [|eexists _, _; by apply ta_range_byscore|eexists _, _; by apply ta_range_bylex].
    destruct (place_total lo) as [a A], (place_total hi) as [b B]. eexists _, _. by apply (ta_range en k lo hi a b).
  - eexists _, _. apply ta_bylex.
  - eexists _, _. apply ta_byscore.
  - eexists _, _. apply ta_rank.
  - eexists _, _. apply ta_rem.
  - eexists _, _. apply ta_remlex.
  - eexists _, _. apply ta_remrank.
  - eexists _, _. apply ta_remscore.
  - destruct (place_total lo) as [a A], (place_total hi) as [b B]. eexists _, _. by apply (ta_revrange en k lo hi a b).
  - eexists _, _. apply ta_revbylex.
  - eexists _, _. apply ta_revbyscore.
  - eexists _, _. apply ta_revrank.
Qed.
Lemma fair_explained en num t0 t1 q m : fair q -> orderly m -> exists m1 P, fates en num t0 t1 q m m1 P.
Proof.
  intros FA N.
  assert (F : forall k y P, fate_key en num t0 t1 q k (m k) y P -> exists m1 P, fates en num t0 t1 q m m1 P) by (intros; eexists _, _; by apply f_key).
  assert (K : forall k y P, means_key en num t0 t1 q k (m k) y P -> exists m1 P, fates en num t0 t1 q m m1 P) by (intros; eapply F; by apply fk_means).
  (* by kind of value: the request's own kind, no value, another kind *)
  assert (KS : forall k kd, works_on q = Some (k, kd) -> bounds_read q ->
    (forall x d, m k = Some (x, d) -> kind_of x = kd -> exists m1 P, fates en num t0 t1 q m m1 P) ->
    (m k = None -> exists m1 P, fates en num t0 t1 q m m1 P) -> exists m1 P, fates en num t0 t1 q m m1 P).
  { intros k kd W B H1 H2. destruct (m k) as [[x d]|] eqn:E; [|by apply H2]. destruct (decide (kind_of x = kd)) as [KD|KD]; [by eapply H1|].
    eapply (K k). rewrite E. by eapply mk_wrong_type. }
  assert (LI : forall k f, list_meaning en q = Some (k, f) -> works_on q = Some (k, KList) -> bounds_read q -> exists m1 P, fates en num t0 t1 q m m1 P).
  { intros k f L W B. apply (KS k KList W B).
    - intros x d E KD. destruct x; try done. eapply (K k). rewrite E. by apply (mk_list en num t0 t1 q k f (Some l) d).
    - intros E. eapply (K k). rewrite E. by apply (mk_list en num t0 t1 q k f None 0%N). }
  assert (HA : forall k f, hash_meaning en num q = Some (k, f) -> works_on q = Some (k, KHash) -> bounds_read q -> exists m1 P, fates en num t0 t1 q m m1 P).
  { intros k f L W B. apply (KS k KHash W B).
    - intros x d E KD. destruct x as [|h| | |]; try done. eapply (K k). rewrite E. by apply (mk_hash en num t0 t1 q k f (Some h) d).
    - intros E. eapply (K k). rewrite E. by apply (mk_hash en num t0 t1 q k f None 0%N). }
  assert (SE : forall k f, set_meaning_of q = Some (k, f) -> works_on q = Some (k, KSet) -> bounds_read q -> exists m1 P, fates en num t0 t1 q m m1 P).
  { intros k f L W B. apply (KS k KSet W B).
    - intros x d E KD. destruct x as [| | |h|]; try done. eapply (K k). rewrite E. by apply (mk_set en num t0 t1 q k f (Some h) d).
    - intros E. eapply (K k). rewrite E. by apply (mk_set en num t0 t1 q k f None 0%N). }
  assert (CO : forall k n, counter_asks q = Some (k, n) -> works_on q = Some (k, KString) -> bounds_read q -> exists m1 P, fates en num t0 t1 q m m1 P).
  { intros k n L W B. apply (KS k KString W B).
    - intros x d E KD. destruct x as [x| | | |]; try done.
      destruct (num x) eqn:X; eapply (K k); rewrite E; [by eapply mk_counter|by eapply mk_counter_refused].
    - intros E. eapply (K k). rewrite E. by apply mk_counter_new. }
  assert (ZS : forall k, works_on q = Some (k, KZset) -> exists m1 P, fates en num t0 t1 q m m1 P).
  { intros k W. destruct (asks_total en q k W) as (r & rep & A). destruct r as [o|R|].
    - destruct (m k) as [[x d]|] eqn:E.
      + destruct (decide (kind_of x = KZset)) as [KD|KD]; [|eapply (F k); rewrite E; by eapply fk_two_wrong_type].
        destruct x as [| | | |h l]; try done. pose proof (N k _ d E) as O.
        eapply (F k). rewrite E. by apply (fk_two en num t0 t1 q k o rep (Some (Two h l)) d).
      + eapply (F k). rewrite E. by apply (fk_two en num t0 t1 q k o rep None 0%N).
    - eapply (F k). by eapply fk_two_refused.
    - eapply (F k). by eapply fk_two_kills. }
  unfold fair in FA. destruct q; try done.
  all: try (eapply LI; [reflexivity|reflexivity|exact I]; fail). all: try (eapply HA; [reflexivity|reflexivity|exact I]; fail).
  all: try (eapply SE; [reflexivity|reflexivity|exact I]; fail). all: try (eapply CO; [reflexivity|reflexivity|exact I]; fail). all: try (eapply ZS; reflexivity; fail).
  all: try (eexists _, _; apply f_means, m_none; reflexivity).
  all: try (eapply K; (apply mk_pttl || apply mk_ttl || apply mk_get || apply mk_set_value)).
  all: try (eapply K; apply mk_setex; reflexivity).
  all: try (eapply K; eapply mk_expire; reflexivity).
  - eexists _, _. apply f_snapshot.
  - destruct ks as [|k [|k2 ks]]; [eexists _, _; apply f_del_nothing|eapply K, mk_del|done].
  - destruct ks as [|k [|k2 ks]]; [eexists _, _; apply f_exists_nothing|eapply K, mk_exists|done].
  - destruct (decide (sub = bs "object")) as [->|NE]; [|eexists _, _; by apply f_means, m_debug].
    destruct ps as [|k ps]; [eexists _, _; apply f_debug_nothing|eapply K, mk_debug].
  - eapply F, fk_dump.
  - eexists _, _. apply f_means, m_flush.
  - destruct (decide (sub ∈ [bs "IDLETIME"; bs "idletime"])) as [I1|I1].
    { destruct ps as [|k ps]; [eexists _, _; by apply f_idletime_nothing|by eapply K, mk_idletime]. }
    destruct (decide (sub ∈ [bs "FREQ"; bs "freq"])) as [I2|I2].
    { destruct ps as [|k ps]; [eexists _, _; by apply f_freq_nothing|by eapply K, mk_freq]. }
    eexists _, _. apply f_means, m_object. rewrite !elem_of_cons in *. tauto.
  - assert (R : re_replace o = true \/ m k = None \/ (re_replace o = false /\ exists x d, m k = Some (x, d))).
    { destruct (re_replace o); [by left|]. destruct (m k) as [[x d]|]; [|by right; left]. right; right; eauto. }
    assert (G : re_replace o = true \/ m k = None -> exists m1 P, fates en num t0 t1 (QRestore k ttl v o) m m1 P).
    { intros G. destruct (deserialize get_data v) as [x|er|] eqn:D; [by eapply (K k), mk_restore|by eapply (K k), mk_restore_malformed|].
      by eapply (F k), fk_restore_dies. }
    destruct R as [R|[R|(R & x & d & E)]]; [apply G; by left|apply G; by right|]. eapply (K k). rewrite E. by apply mk_restore_busy.
Qed.

(** Requests served one after the other, each explained by the store that results from those before. *)
Lemma dealing en l : forall t e m,
  horder_ok (e_ho en) -> shows t (ef_db e) m -> orderly m -> forward t l -> Forall (fun s => fair (sv_req s)) l ->
  let '(e', rs) := serial en l e in
  exists m', map fst rs = map sv_conn l /\ deal en read_int m l (map snd rs) m' /\ orderly m' /\
    shows (List.last (map (fun s => sv_clock s 1%nat) l) t) (ef_db e') m'.
Proof.
  induction l as [|s l IH]; intros t e m HO S OR F FA.
  - cbn. exists m. split; [done|]. split; [constructor|done].
  - cbn [serial]. inversion FA as [|? ? FA1 FA2]; subst.
    inversion F as [|? ? F1 F2]; subst. cbn [map] in F1, F2. inversion F2 as [|? ? L1 L2]; subst.
    pose proof (orderly_later (sv_clock s 1%nat) m OR) as OR1.
    destruct (fair_explained en read_int (sv_clock s 0%nat) (sv_clock s 1%nat) (sv_req s) _ FA1 OR1) as (m1 & P & M).
    pose proof (orderly_fates _ _ _ _ _ _ _ _ OR1 M) as OR2.
    destruct (fates_served en (sv_clock s) (sv_req s) e t m m1 P HO S L1 M) as (e1 & r & E & R & S1). rewrite E.
    specialize (IH (sv_clock s 1%nat) e1 m1 HO S1 OR2 F1 FA2). destruct (serial en l e1) as [e2 rs].
    destruct IH as (m' & I1 & I2 & I3 & I4). exists m'. cbn [map fst snd]. rewrite I1.
    split; [done|]. split; [by econstructor|]. split; [done|].
    replace (List.last (sv_clock s 1%nat :: map (fun s => sv_clock s 1%nat) l) t) with (List.last (map (fun s => sv_clock s 1%nat) l) (sv_clock s 1%nat)); [done|].
    clear. generalize (sv_clock s 1%nat). induction (map (fun s => sv_clock s 1%nat) l) as [|x l' IH]; intros y; [done|]. destruct l'; [done|]. cbn in *. rewrite IH. 
    cbn. rewrite <- (IH x). done.
Qed.
Theorem C110_conversation : exists num, reads_counters num /\ forall en l t e m,
  horder_ok (e_ho en) -> shows t (ef_db e) m -> orderly m -> forward t l -> Forall (fun s => fair (sv_req s)) l ->
  let '(e', rs) := serial en l e in
  exists m', map fst rs = map sv_conn l /\ deal en num m l (map snd rs) m' /\ orderly m' /\
    shows (List.last (map (fun s => sv_clock s 1%nat) l) t) (ef_db e') m'.
Proof. exists read_int. split; [apply read_int_counters|]. intros en l. exact (dealing en l). Qed.
Print Assumptions C110_conversation.

(** ** One client over the wire *)
Lemma deal_app en num l1 : forall m ps1 m1 l2 ps2 m2, deal en num m l1 ps1 m1 -> deal en num m1 l2 ps2 m2 -> deal en num m (l1 ++ l2) (ps1 ++ ps2) m2.
Proof.
  induction l1 as [|s l1 IH]; intros m ps1 m1 l2 ps2 m2 H1 H2; inversion H1; subst; [done|]. cbn. econstructor; [eassumption|done|]. by eapply IH.
Qed.
Lemma fair_parts q : Forall fair (parts q).
Proof.
  destruct q; try (by constructor; [|constructor]); destruct ks as [|k ks]; try (by constructor; [|constructor]); cbn [parts];
    apply List.Forall_map, List.Forall_forall; done.
Qed.
Lemma part_clocks clock ps : forall t, (forall j j', (j <= j')%nat -> (clock j <= clock j')%N) -> (t <= clock 1%nat)%N ->
  forward t (part_entries clock ps).
Proof.
  intros t M L. unfold forward.
  assert (G : forall ps c t, (forall j j', (j <= j')%nat -> (c j <= c j')%N) -> (t <= c 1%nat)%N ->
    Forall (fun u => (t <= u)%N) (map (fun s => sv_clock s 1%nat) (part_entries c ps)) /\ StronglySorted N.le (map (fun s => sv_clock s 1%nat) (part_entries c ps))).
  { clear. induction ps as [|p ps IH]; intros c t M L; cbn [part_entries map sv_clock]; [by repeat constructor|].
    assert (M' : forall j j', (j <= j')%nat -> (c (S j) <= c (S j'))%N) by (intros; apply M; lia).
    split; constructor; [done| | |].
    - apply IH; [done|]. etransitivity; [exact L|]. apply M. lia.
    - apply (IH _ (c 1%nat)); [done|]. apply M. lia.
    - apply (IH _ (c 1%nat)); [done|]. apply M. lia. }
  destruct (G ps clock t M L) as [G1 G2]. by constructor.
Qed.
Lemma last_bound {A} (f : A -> N) u l : forall t, (t <= u)%N -> Forall (fun x => (f x <= u)%N) l -> (List.last (map f l) t <= u)%N.
Proof.
  induction l as [|x l IH]; intros t L F; [done|]. inversion F; subst. cbn [map]. destruct l as [|y l]; [done|]. cbn [map] in *. by apply (IH t).
Qed.
Lemma part_bound ps : forall c u, (forall j, (c j <= u)%N) -> Forall (fun s => (sv_clock s 1%nat <= u)%N) (part_entries c ps).
Proof. induction ps as [|p ps IH]; intros c u H; constructor; [apply H|]. apply IH. intros j. apply H. Qed.

Lemma session_deal en clock fs rs e e' o : session en clock (fun _ => alone) e fs rs e' o -> forall t m,
  horder_ok (e_ho en) -> shows t (ef_db e) m -> orderly m -> ticks t clock ->
  Forall (fun f => forall q, from_frame f = Some q -> (Z.of_nat (length (parts q)) < 2 ^ 63)%Z) fs ->
  exists served qs rest ps m', fs = served ++ rest /\ Forall2 (fun f q => from_frame f = Some q) served qs /\
    deal en read_int m (entries_apart clock qs) ps m' /\ orderly m' /\ (exists t', shows t' (ef_db e') m') /\ ends qs rest ps rs o.
Proof.
  intros SE. remember (fun _ : nat => alone) as oth eqn:OTH. induction SE as [clock oth e|clock oth e f fs e1 r rs e2 h SF _ IH|clock oth e f fs e1 h SF]; subst oth; intros t m HO S OR TI FA.
  - exists [], [], [], [], m. split; [done|]. split; [done|]. split; [constructor|]. split; [done|]. split; [eauto|]. by apply (ends_all _ _ _ _ []); [| |constructor].
  - inversion FA as [|? ? FA1 FA2]; subst. unfold serve_frame in SF. destruct (from_frame f) as [q|] eqn:FQ; [|done]. pose proof (FA1 q eq_refl) as LQ.
    destruct TI as (T1 & T2 & T3).
    destruct (serve_apart en (clock 0%nat) q e LQ) as (e1' & r1 & S1 & C).
    pose proof (dealing en (part_entries (clock 0%nat) (parts q)) t e m HO S OR (part_clocks _ _ t (T2 0%nat) (T1 1%nat))) as D. rewrite S1 in D.
    destruct D as (m1 & _ & D & OR1 & SH).
    { clear. pose proof (fair_parts q) as F. revert F. generalize (parts q) (clock 0%nat). induction l as [|p l IH]; intros c F; constructor; inversion F; subst; [done|]. by apply IH. }
    rewrite map_map in D. cbn [snd] in D. rewrite map_id in D.
    assert (e1' = e1) as -> by (destruct C as [(_ & C & _)|(zs & _ & _ & C)]; congruence).
    set (t1 := List.last _ t) in SH.
    destruct (IH eq_refl t1 m1 HO SH OR1) as (served & qs & rest & ps & m' & -> & F2 & D2 & OR2 & SH2 & EN); [|done|].
    { split; [|split]; [|intros; by apply T2|intros; apply T3]. intros j. unfold t1. apply last_bound; [etransitivity; [apply (T1 0%nat)|apply T3]|].
      apply part_bound. intros j'. apply T3. }
    exists (f :: served), (q :: qs), rest, (r1 ++ ps), m'. split; [done|]. split; [by constructor|]. cbn [entries_apart]. split; [by eapply deal_app|]. split; [done|]. split; [done|].
    assert (exists p1, r1 = map inl p1 /\ forall qs ps rs, merged qs ps rs -> merged (q :: qs) (p1 ++ ps) (r :: rs)) as (p1 & -> & MG).
    { destruct C as [(P & C & L)|(zs & -> & L & C)].
      - destruct r1 as [|x [|]]; try done. cbn in C. assert (x = inl r) as -> by congruence. exists [r]. split; [done|]. intros. by constructor.
      - assert (r = FInteger (sum_of zs)) as -> by congruence. exists (map FInteger zs). rewrite map_map. split; [done|]. intros. by constructor. }
    destruct EN as [fs' X1 X2 M|f' rest' fs' X1 N X2 M|qs' q' fs' h' X1 X2 M]; subst ps.
    + apply (ends_all _ _ _ _ (p1 ++ fs')); [done|by rewrite map_app|by apply MG].
    + apply (ends_no_request _ _ _ _ f' rest' (p1 ++ fs')); [done|done|by rewrite map_app|by apply MG].
    + apply (ends_dead _ _ _ _ (q :: qs') q' (p1 ++ fs')); [by rewrite X1|by rewrite map_app, app_assoc|by apply MG].
  - inversion FA as [|? ? FA1 FA2]; subst. unfold serve_frame in SF. destruct (from_frame f) as [q|] eqn:FQ.
    + pose proof (FA1 q eq_refl) as LQ. destruct TI as (T1 & T2 & T3).
      destruct (serve_apart en (clock 0%nat) q e LQ) as (e1' & r1 & S1 & C).
      pose proof (dealing en (part_entries (clock 0%nat) (parts q)) t e m HO S OR (part_clocks _ _ t (T2 0%nat) (T1 1%nat))) as D. rewrite S1 in D.
      destruct D as (m1 & _ & D & OR1 & SH).
      { clear. pose proof (fair_parts q) as F. revert F. generalize (parts q) (clock 0%nat). induction l as [|p l IH]; intros c F; constructor; inversion F; subst; [done|]. by apply IH. }
      rewrite map_map in D. cbn [snd] in D. rewrite map_id in D.
      destruct C as [(P & C & L)|(zs & _ & _ & C)]; [|congruence]. assert (e1' = e1) as -> by congruence.
      destruct r1 as [|x [|]]; try done. cbn in C. assert (x = inr h) as -> by congruence.
      exists [f], [q], fs, [inr h], m1. split; [done|]. split; [by repeat constructor|]. cbn [entries_apart]. rewrite app_nil_r. split; [done|]. split; [done|]. split; [eauto|].
      apply (ends_dead _ _ _ _ [] q []); [done|done|constructor].
    + injection SF as <- <-. exists [], [], (f :: fs), [], m. split; [done|]. split; [done|]. split; [constructor|]. split; [done|]. split; [eauto|].
      by apply (ends_no_request _ _ _ _ f fs []); [| | |constructor].
Qed.
(** Whatever bytes arrive, in whatever packets. *)
Theorem C110_bytes : exists num, reads_counters num /\ forall en clock chunks t e m,
  horder_ok (e_ho en) -> shows t (ef_db e) m -> orderly m -> ticks t clock ->
  let '(fs, ce) := conn_requests chunks in
  Forall (fun f => forall q, from_frame f = Some q -> (Z.of_nat (length (parts q)) < 2 ^ 63)%Z) fs ->
  let '(e', rs, h) := connection en clock (fun _ => alone) chunks e in
  exists served qs rest ps m' o, fs = served ++ rest /\ Forall2 (fun f q => from_frame f = Some q) served qs /\
    deal en num m (entries_apart clock qs) ps m' /\ orderly m' /\ (exists t', shows t' (ef_db e') m') /\ ends qs rest ps rs o /\
    h = match o with None => match ce with EndClean => HClean | _ => HError end | Some h' => h' end.
Proof.
  exists read_int. split; [apply read_int_counters|]. intros en clock chunks t e m HO S OR TI.
  pose proof (C65_connection_is_a_session en clock (fun _ => alone) chunks e) as SS. destruct (conn_requests chunks) as [fs ce]. intros FA.
  destruct (connection en clock (fun _ => alone) chunks e) as [[e' rs] h]. destruct SS as (o & SS & O).
  destruct (session_deal en clock fs rs e e' o SS t m HO S OR TI FA) as (served & qs & rest & ps & m' & H1 & H2 & H3 & H4 & H5 & H6).
  exists served, qs, rest, ps, m', o. repeat (split; [done|]). destruct o; by destruct O.
Qed.
Print Assumptions C110_bytes.

(** ** Many clients *)
Lemma fated_answered i l (rs : list (nat * fate)) : map fst rs = map sv_conn l -> fated i l (map snd rs) = answered i rs.
Proof.
  intros H. unfold fated, answered. rewrite <- H. clear H. f_equal. f_equal. induction rs as [|[j r] rs IH]; [done|]. cbn. by rewrite IH.
Qed.
Theorem C110_clients : exists num, reads_counters num /\ forall en b m ins evs x,
  horder_ok (e_ho en) -> shows 0 b m -> orderly m -> Forall (Forall divisible) ins ->
  csteps en evs (cs_start b ins) = Some x -> StronglySorted N.le (map snd evs) ->
  exists l fs m' t, deal en num m l fs m' /\ orderly m' /\ shows t (cs_db x) m' /\
    forall i k, cs_conns x !! i = Some k -> exists qs rest ps,
      nth i ins [] = qs ++ rest /\ merged qs ps (k_out k) /\ (exists last, fated i l fs = map inl ps ++ last) /\
      (exists more, flat_map parts (nth i ins []) = asked i l ++ more) /\
      (k_pc k = KIdle -> rest = k_in k /\ fated i l fs = map inl ps /\ asked i l = flat_map parts qs).
Proof.
  exists read_int. split; [apply read_int_counters|]. intros en b m ins0 evs0 x0 HO S OR A0 H0 T0.
  assert (D : Forall (Forall separable) ins0) by (eapply List.Forall_impl; [|exact A0]; intros qs Q; eapply List.Forall_impl; [|exact Q]; intros ?; apply divisible_separable).
  destruct (C75_parts en b ins0 evs0 x0 D H0) as (evs & x & H & E1 & _ & _ & (_ & T') & AP). pose proof (T' T0) as T. clear T'.
  set (ins := map (flat_map parts) ins0) in *.
  assert (A : Forall (Forall (fun q => single q /\ fair q)) ins).
  { apply List.Forall_map. eapply List.Forall_impl; [|exact A0]. intros qs Q. apply List.Forall_forall. intros p P. apply in_flat_map in P as (q & IN & P).
    rewrite List.Forall_forall in Q. pose proof (parts_single q (Q q IN)) as D3. pose proof (fair_parts q) as D4. rewrite List.Forall_forall in D3, D4. split; [by apply D3|by apply D4]. }
  assert (SI : Forall (Forall single) ins) by (eapply List.Forall_impl; [|exact A]; intros qs Q; eapply List.Forall_impl; [|exact Q]; by intros ? []).
  destruct (C75_one_at_a_time_partial en b ins evs x SI H) as (L & L1 & _). destruct (L1 (length evs)) as (y & Y & EX & _ & SO); [lia|].
  rewrite firstn_all in Y, SO. rewrite H in Y. injection Y as <-. specialize (SO T). set (l := L (length evs)) in *. clearbody l. clear L L1.
  unfold explains in EX. pose proof (dealing en l 0%N (Effects b [] []) m HO S OR) as C.
  destruct (serial en l (Effects b [] [])) as [e rs]. destruct EX as (DB & CL & CO).
  destruct C as (m' & C1 & C2 & C3 & C4).
  { constructor; [done|]. apply List.Forall_forall. lia. }
  { apply List.Forall_forall. intros s IN. rewrite List.Forall_forall in CL. pose proof (CL s IN) as LT. apply lookup_lt_is_Some in LT as [k K].
    destruct (CO _ _ K) as [(rest & R) _].
    assert (M : In (sv_req s) (nth (sv_conn s) ins [])).
    { rewrite R. apply in_or_app. left. unfold asked. apply in_map, filter_In. split; [done|]. apply Nat.eqb_refl. }
    rewrite List.Forall_forall in A. destruct (nth_in_or_default (sv_conn s) ins []) as [I|I]; [|by rewrite I in M].
    specialize (A _ I). rewrite List.Forall_forall in A. by apply A. }
  exists l, (map snd rs), m', (List.last (map (fun s => sv_clock s 1%nat) l) 0%N). split; [done|]. split; [done|]. split; [by rewrite <- E1, <- DB|].
  intros i k K. destruct (AP i k K) as (k' & qs & rest & ps & K' & E & M & (la & LA) & I). destruct (CO i k' K') as ((more & M1) & (la2 & L2 & _) & I2).
  rewrite (fated_answered i l rs C1). unfold ins in M1, I2. change (@nil request) with (flat_map parts []) in M1, I2. rewrite map_nth in M1, I2.
  exists qs, rest, ps. split; [done|]. split; [done|]. split; [rewrite L2, LA, map_app, <- app_assoc; by eexists|]. split; [by exists more|].
  intros KI. destruct (I KI) as (-> & PI & O & IN). destruct (I2 PI) as [O2 M2]. split; [done|]. split; [by rewrite O2, O|].
  rewrite E, flat_map_app, IN in M2. by apply app_inv_tail in M2.
Qed.
Print Assumptions C110_clients.

(** ** Concrete cases *)
(** A query by name in a list that shows one member twice, an interval upside down, and a text cut inside a character. *)
Example C110_key_case :
  db_view 5 (ef_db ex_incr) (bs "z") = stored two_data 0 (Some ex_two) /\ two_ok (Some ex_two) /\
  two_asks ex_env (QZrangebylex (bs "z") (bs "(a") (bs "+x") None) (bs "z") (Reads (TRangeByLex (Excluded (bs "a"), Unbounded) None false)) (nodes_reply ex_env false) /\
  two_asks ex_env (QZrangebyscore (bs "z") (bs "4") (bs "(2") false None) (bs "z") (Reads (TRangeByScore (Included (f64_of_Z 4), Excluded (f64_of_Z 2)) None false)) (nodes_reply ex_env false) /\
  snd (two_step (TRangeByScore (Included (f64_of_Z 4), Excluded (f64_of_Z 2)) None false) (Some ex_two)) = OPanic /\
  two_asks ex_env (QZremrangebylex (bs "z") [xc3; xa9] (bs "[b")) (bs "z") Kills removed_reply /\
  two_asks ex_env (QZremrangebyscore (bs "z") (bs "1") (bs "(")) (bs "z") (Refused (eq (FError (bs "cannot parse float from empty string")))) removed_reply.
Proof.
  split; [exact (proj1 C109_requests_case)|]. split; [exact (proj1 (proj2 C109_requests_case))|].
  split; [exact (ta_bylex ex_env (bs "z") (bs "(a") (bs "+x") None)|].
  split; [pose proof (ta_byscore ex_env (bs "z") (bs "4") (bs "(2") None false) as H; by vm_compute in H |- *|].
  split; [by vm_compute|].
  split; [exact (ta_remlex ex_env (bs "z") [xc3; xa9] (bs "[b"))|].
  pose proof (ta_remscore ex_env (bs "z") (bs "1") (bs "(")) as H. exact H.
Qed.
(** Over the wire: INCR options and NaN, several keys, then a request whose handler dies; what follows is not served. *)
Definition c110_lines : list (list bytes) :=
  [[bs "ZADD"; bs "z"; bs "1"; bs "a"; bs "5"; bs "b"]; [bs "ZADD"; bs "z"; bs "INCR"; bs "2"; bs "a"]; [bs "zrange"; bs "z"; bs "0"; bs "x"];
   [bs "EXISTS"; bs "z"; bs "y"; bs "z"]; [bs "ZRANGEBYSCORE"; bs "z"; bs "4"; bs "(2"]; [bs "DEL"; bs "z"]].
Definition c110_bytes : bytes := concat (map (fun l => write (req l)) c110_lines).
Definition c110_chunks : list bytes := [firstn 41 c110_bytes; skipn 41 c110_bytes].
Definition c110_clock (i j : nat) : N := (10 * N.of_nat i + N.min 9 (N.of_nat j))%N.
Example C110_bytes_case :
  shows 0 (ef_db ex_start) nothing_stored /\ orderly nothing_stored /\ ticks 0 c110_clock /\
  conn_requests c110_chunks = (map req c110_lines, EndClean) /\
  Forall (fun f => forall q, from_frame f = Some q -> (Z.of_nat (length (parts q)) < 2 ^ 63)%Z) (map req c110_lines) /\
  (let '(e', rs, h) := connection ex_env c110_clock (fun _ => alone) c110_chunks ex_start in (rs, h)) =
    ([FInteger 2; FInteger 0; FError (bs "invalid digit found in string"); FInteger 2], HPanic).
Proof.
  split; [intros t' k _; done|]. split; [by intros k x d|].
  split; [unfold ticks, c110_clock; split; [lia|split; lia]|]. split; [by vm_compute|]. split; [|by vm_compute].
  repeat (constructor; [intros q Q; vm_compute in Q; injection Q as <-; by vm_compute|]). constructor.
Qed.
Example C110_conversation_case :
  let l := [Served 0 (QZadd (bs "z") (ZaddOpts NxXx_None GtLt_None false true) [(S754_nan, bs "m")]) (fun _ => 7%N);
            Served 1 (QZadd (bs "z") (ZaddOpts NxXx_None GtLt_None false false) [(f64_of_Z 1, bs "n")]) (fun _ => 8%N);
            Served 0 (QZrank (bs "z") (bs "n")) (fun _ => 9%N);
            Served 0 (QRestore (bs "z") 0 ex_forged (RestoreOpts true false None None)) (fun _ => 10%N);
            Served 0 (QZrem (bs "z") [bs "b"]) (fun _ => 11%N);
            Served 0 (QZrange (bs "z") (bs "0") (bs "-1") (RangeOpts ByRank false None false)) (fun _ => 12%N)] in
  forward 0 l /\ Forall (fun s => fair (sv_req s)) l /\
  map snd (snd (serial ex_env l ex_start)) = [inl (FInteger 1); inr HPanic; inl FNull; inl frame_ok; inl (FInteger 1); inl (FArray [])].
Proof. split; [repeat (constructor; try done)|]. split; [by repeat constructor|by vm_compute]. Qed.
Example C110_clients_case :
  Forall (Forall divisible) [[QIncr cl_a; QDel [cl_a; cl_b]]; [QZadd cl_a (ZaddOpts NxXx_None GtLt_None false true) [(S754_nan, cl_b)]]].
Proof. by repeat constructor. Qed.
