(** Lemmas about the access log. *)
From Verif Require Export SpecVisit DbFacts.
Local Open Scope N_scope.

Lemma land_65535 x : N.land x 65535 = x mod 65536.
Proof. change 65535 with (N.ones 16). rewrite N.land_ones. done. Qed.
Lemma shiftr_16 x : N.shiftr x 16 = x / 65536.
Proof. rewrite N.shiftr_div_pow2. done. Qed.
Lemma shiftr_32 x : N.shiftr x 32 = x / 4294967296.
Proof. rewrite N.shiftr_div_pow2. done. Qed.
Lemma wrap_shl32 x : wrap_u64 (N.shiftl x 32) = (x mod 4294967296) * 4294967296.
Proof.
  rewrite N.shiftl_mul_pow2. unfold wrap_u64, two64.
  change (2 ^ 64) with (4294967296 * 4294967296). change (2 ^ 32) with 4294967296.
  rewrite N.mul_mod_distr_r; lia.
Qed.
Lemma create_log lv ld t : ld < 65536 -> t < 65536 ->
  create_visit_log lv ld t = (lv mod 4294967296) * 4294967296 + ld * 65536 + t.
Proof.
  intros H1 H2. unfold create_visit_log. rewrite wrap_shl32. rewrite N.shiftl_mul_pow2.
  change (2 ^ 16) with 65536. unfold wrap_u64, two64. change (2 ^ 64) with 18446744073709551616.
  pose proof (N.mod_lt lv 4294967296). rewrite (N.mod_small (ld * 65536)) by lia. rewrite N.mod_small; lia.
Qed.
Lemma create_log_times lv ld t : ld < 65536 -> t < 65536 -> get_visit_times (create_visit_log lv ld t) = t.
Proof.
  intros H1 H2. rewrite create_log by done. unfold get_visit_times, max_visit_times. rewrite land_65535.
  symmetry. apply (N.mod_unique _ _ ((lv mod 4294967296) * 65536 + ld)); lia.
Qed.
Lemma create_log_desc lv ld t : ld < 65536 -> t < 65536 -> get_last_desc_time (create_visit_log lv ld t) = ld.
Proof.
  intros H1 H2. rewrite create_log by done. unfold get_last_desc_time. rewrite land_65535, shiftr_16.
  rewrite <- (N.div_unique _ _ ((lv mod 4294967296) * 65536 + ld) t); [|lia|lia].
  symmetry. apply (N.mod_unique _ _ (lv mod 4294967296)); lia.
Qed.
Lemma create_log_last lv ld t : ld < 65536 -> t < 65536 -> get_last_visit_time (create_visit_log lv ld t) = lv mod 4294967296.
Proof.
  intros H1 H2. rewrite create_log by done. unfold get_last_visit_time. rewrite shiftr_32.
  symmetry. apply (N.div_unique _ _ _ (ld * 65536 + t)); lia.
Qed.
Lemma get_min_mod now : get_min now = (now / 60000) mod 65536.
Proof. unfold get_min. apply land_65535. Qed.
Lemma get_min_lt now : get_min now < 65536.
Proof. rewrite get_min_mod. apply N.mod_lt. done. Qed.
Lemma times_le log : get_visit_times log < 65536.
Proof. unfold get_visit_times, max_visit_times. rewrite land_65535. apply N.mod_lt. done. Qed.
Lemma desc_le log : get_last_desc_time log < 65536.
Proof. unfold get_last_desc_time. rewrite land_65535. apply N.mod_lt. done. Qed.

Definition step_times (now log : N) : N :=
  let diff := sub_u64 (get_min now) (get_last_desc_time log) in
  let vt := get_visit_times log in
  let vt := if vt <? diff then 0 else vt - diff in
  if vt <? max_visit_times then vt + 1 else vt.
Lemma step_times_lt now log : step_times now log < 65536.
Proof.
  unfold step_times, max_visit_times. pose proof (times_le log).
  generalize (sub_u64 (get_min now) (get_last_desc_time log)); intros diff.
  destruct (get_visit_times log <? diff) eqn:?; [cbn; lia|].
  destruct (get_visit_times log - diff <? 65535) eqn:?; lia.
Qed.
Lemma update_log now log : update_visit_log now log = create_visit_log (now / 10000) (get_min now) (step_times now log).
Proof. done. Qed.
Lemma update_times now log : get_visit_times (update_visit_log now log) = step_times now log.
Proof. rewrite update_log. apply create_log_times; [apply get_min_lt|apply step_times_lt]. Qed.
Lemma update_desc now log : get_last_desc_time (update_visit_log now log) = get_min now.
Proof. rewrite update_log. apply create_log_desc; [apply get_min_lt|apply step_times_lt]. Qed.
Lemma update_last now log : get_last_visit_time (update_visit_log now log) = (now / 10000) mod 4294967296.
Proof. rewrite update_log. apply create_log_last; [apply get_min_lt|apply step_times_lt]. Qed.

(** The u64 subtraction of two 16-bit minute counters. *)
Lemma sub_u64_small a b : a < 65536 -> b <= a -> sub_u64 a b = a - b.
Proof.
  intros H1 H2. unfold sub_u64, two64. change (2 ^ 64) with 18446744073709551616.
  rewrite (N.mod_small b) by lia. symmetry. apply (N.mod_unique _ _ 1); lia.
Qed.
Lemma step_era t0 t1 log : get_last_desc_time log = get_min t0 -> t0 <= t1 -> same_era t0 t1 ->
  step_times t1 log = freq_step (get_visit_times log) (t1 / 60000 - t0 / 60000).
Proof.
  intros D O E. unfold step_times, freq_step, max_visit_times. rewrite D, !get_min_mod. unfold same_era in E.
  pose proof (N.div_le_mono t0 t1 60000 ltac:(done) O) as M.
  pose proof (N.div_mod (t0 / 60000) 65536). pose proof (N.div_mod (t1 / 60000) 65536).
  pose proof (N.mod_lt (t0 / 60000) 65536). pose proof (N.mod_lt (t1 / 60000) 65536).
  rewrite sub_u64_small by lia. pose proof (times_le log).
  set (a := t0 / 60000) in *. set (b := t1 / 60000) in *. clearbody a b.
  replace (b mod 65536 - a mod 65536) with (b - a) by lia.
  destruct (get_visit_times log <? b - a) eqn:?; [cbn; lia|].
  destruct (get_visit_times log - (b - a) <? 65535) eqn:?; lia.
Qed.

(** ** What the commands do to the log *)
Lemma rapply_access ho now r d v : ~ silent (CRead r) -> inner d !! rkey r = Some v -> alive now v = true ->
  inner (fst (rapply ho now r d)) !! rkey r = Some (touch now v).
Proof.
  intros S L AL.
  assert (G : forall k, k = rkey r -> dict_get now k d = (dict_put k (touch now v) d, Some (touch now v))).
  { intros k ->. unfold dict_get. by rewrite L, AL. }
  destruct r; cbn [rkey] in *; try (by destruct S);
    unfold rapply, get_apply, exists_apply, dict_exists, dump_apply, kvp_get_apply, kvp_get_all_apply, kvp_exists_apply, deque_len_apply,
      deque_range_apply, set_exists_apply, set_get_all_apply, zrank_apply, zrange_rank_apply, zrange_score_apply, zrange_lex_apply;
    rewrite (G k eq_refl); cbv iota beta; repeat case_match; subst; cbn [fst];
    repeat match goal with H : (_, _) = (_, _) |- _ => injection H as <- <- end; apply inner_put.
Qed.
Lemma silent_read ho now r d : silent (CRead r) -> fst (rapply ho now r d) = d.
Proof. destruct r; try done. Qed.

Lemma db_read_access ho now r b v : ~ silent (CRead r) -> db_raw b (rkey r) = Some v -> alive now v = true ->
  db_raw (fst (db_read ho now r b)) (rkey r) = Some (touch now v).
Proof.
  intros S L AL. rewrite (proj1 (db_read_unfold _ _ _ _)). unfold db_raw. rewrite db_set_same. by apply rapply_access.
Qed.
Lemma db_cmd_silent ho now c b : silent c -> forall k, db_raw (fst (db_cmd ho now c b)) k = db_raw b k.
Proof.
  destruct c as [w|r]; [done|]. intros S k. cbn [db_cmd]. rewrite (proj1 (db_read_unfold _ _ _ _)).
  unfold db_raw. rewrite silent_read by done.
  unfold db_set. destruct (N.eqb_spec (get_slot k) (get_slot (rkey r))) as [->|]; done.
Qed.
Lemma db_run_quiet ho h b k : quiet k h -> db_raw (fst (db_run ho h b)) k = db_raw b k.
Proof.
  revert b; induction h as [|[now c] h IH]; intros b Q; [done|]. cbn [db_run].
  destruct (db_cmd ho now c b) as [b1 r] eqn:E. specialize (IH b1 (Forall_inv_tail Q)).
  destruct (db_run ho h b1) as [b2 rs]. cbn [fst] in *. rewrite IH.
  pose proof (Forall_inv Q) as [Ne|S]; cbn [snd] in *.
  - pose proof (db_cmd_other ho now c b k ltac:(congruence)) as H. by rewrite E in H.
  - pose proof (db_cmd_silent ho now c b S k) as H. by rewrite E in H.
Qed.
Lemma db_read_last ho now k b :
  snd (db_read ho now (RLastVisit k) b) =
    OOk (POptN ((fun v => wrap_u64 (get_last_visit_time (v_log v) * 10)) <$> db_raw b k)).
Proof.
  rewrite (proj2 (db_read_unfold _ _ _ _)). cbn [snd rkey rapply]. unfold get_last_visit_time_apply, raw_get, db_raw.
  by destruct (inner (b (get_slot k)) !! k).
Qed.
Lemma db_read_times ho now k b :
  snd (db_read ho now (RVisitTimes k) b) = OOk (POptN ((fun v => get_visit_times (v_log v)) <$> db_raw b k)).
Proof.
  rewrite (proj2 (db_read_unfold _ _ _ _)). cbn [snd rkey rapply]. unfold get_visit_times_apply, raw_get, db_raw.
  by destruct (inner (b (get_slot k)) !! k).
Qed.

(** A view that shows the key means the raw value is there and alive. *)
Lemma view_raw t b k x e : db_view t b k = Some (x, e) ->
  exists v, db_raw b k = Some v /\ alive t v = true /\ v_data v = x /\ v_exp v = e.
Proof.
  unfold db_view, view, contents, db_raw. destruct (inner _ !! k) as [v|]; cbn; [|done].
  destruct (decide (lives t (v_exp v))) as [L|]; [|done]. intros H; injection H as <- <-.
  exists v. split; [done|]. split; [by apply alive_lives|done].
Qed.

Lemma idle_time ho t0 t1 r b h k x e : accessing k r -> db_view t0 b k = Some (x, e) -> quiet k h -> t0 / 10000 < 2 ^ 32 ->
  snd (db_read ho t1 (RLastVisit k) (fst (db_run ho h (fst (db_read ho t0 r b))))) = OOk (POptN (Some (t0 / 10000 * 10))).
Proof.
  intros [K S] V Q H. apply view_raw in V as (v & R & AL & _ & _).
  rewrite db_read_last, db_run_quiet by done. subst k.
  rewrite (db_read_access ho t0 r b v) by done. cbn [option_map fmap option_fmap].
  change (v_log (touch t0 v)) with (update_visit_log t0 (v_log v)). rewrite update_last.
  change (2 ^ 32) with 4294967296 in H. rewrite (N.mod_small (t0 / 10000)) by done.
  unfold wrap_u64, two64. change (2 ^ 64) with 18446744073709551616. rewrite N.mod_small by lia. done.
Qed.
Lemma freq_decay ho t0 r0 b h t1 r1 k x e h' t f : accessing k r0 -> accessing k r1 ->
  db_view t0 b k = Some (x, e) -> quiet k h -> lives t1 e -> t0 <= t1 -> same_era t0 t1 -> quiet k h' ->
  let b1 := fst (db_run ho h (fst (db_read ho t0 r0 b))) in
  let b2 := fst (db_run ho h' (fst (db_read ho t1 r1 b1))) in
  snd (db_read ho t (RVisitTimes k) b1) = OOk (POptN (Some f)) ->
  snd (db_read ho t (RVisitTimes k) b2) = OOk (POptN (Some (freq_step f (t1 / 60000 - t0 / 60000)))).
Proof.
  intros [K0 S0] [K1 S1] V Q L O E Q' b1 b2 F. apply view_raw in V as (v & R & AL & _ & X).
  assert (R1 : db_raw b1 k = Some (touch t0 v)).
  { unfold b1. rewrite db_run_quiet by done. subst k. by apply db_read_access. }
  assert (R2 : db_raw b2 k = Some (touch t1 (touch t0 v))).
  { unfold b2. rewrite db_run_quiet by done. rewrite <- K1. apply db_read_access; [done|by rewrite K1|].
    apply alive_lives. cbn. by rewrite X. }
  rewrite db_read_times, R1 in F. injection F as F. rewrite db_read_times, R2. cbn [option_map fmap option_fmap].
  change (v_log (touch t1 (touch t0 v))) with (update_visit_log t1 (update_visit_log t0 (v_log v))).
  rewrite update_times, (step_era t0 t1) by (try done; apply update_desc).
  change (v_log (touch t0 v)) with (update_visit_log t0 (v_log v)) in F. by rewrite F.
Qed.
Lemma freq_bounded ho t k b n : snd (db_read ho t (RVisitTimes k) b) = OOk (POptN (Some n)) -> n <= 65535.
Proof.
  rewrite db_read_times. destruct (db_raw b k) as [v|]; cbn; [|done]. intros H; injection H as <-.
  pose proof (times_le (v_log v)). lia.
Qed.
