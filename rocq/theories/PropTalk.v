(** C107: whole conversations, of one client over the wire or of many clients at once, are explained by a store of keys. *)
From Verif Require Export SpecTalk.
From Verif Require Import WireFacts CollFacts SimpleFacts CmdFacts DbFacts VisitFacts ZsetFacts BytesFacts FrameFacts ClientsFacts PropClients TextFacts PropFrame.

(** ** One request *)
Lemma read_text b : match atoi_i64 b with Some z => reads_as b z /\ (- 2 ^ 63 <= z < 2 ^ 63)%Z | None => forall z, ~ (reads_as b z /\ (- 2 ^ 63 <= z < 2 ^ 63)%Z) end.
Proof.
  pose proof (atoi_reads b) as A. destruct (atoi_i64 b) as [z|]; unfold is_i64, i64_min, i64_max, z_two63 in A.
  - split; [apply A|]. lia.
  - intros z [R I]. specialize (A z R). lia.
Qed.
Lemma read_int_counters : reads_counters read_int.
Proof.
  assert (T : forall x, read_int x = match x with SBytes b | SString b => match atoi_i64 b with Some z => inl z | None => inr ENotInt end
    | SInteger z => inl z | _ => inr EWrongType end).
  { intros []; try done; unfold read_int; cbn; by destruct (atoi_i64 _). }
  split; [|split].
  - intros x z H. rewrite T. destruct x; cbn in H; try done; try (by subst).
    all: pose proof (read_text b) as R; destruct (atoi_i64 b) as [y|]; [|exfalso; eapply R; exact H].
    all: destruct H as [H _], R as [R _]; by rewrite (reads_as_unique _ _ _ H R).
  - intros x H N. rewrite T. destruct x; try done; pose proof (read_text b) as R; (destruct (atoi_i64 b) as [y|]; [|done]); exfalso; by apply (N y).
  - intros x H N. rewrite T. destruct x; try done; cbn in H; try tauto. by exfalso; apply (N z).
Qed.
Lemma wrap_as z : wrap_i64 z = as_i64 z.
Proof. unfold wrap_i64, as_i64, z_two63, z_two64. done. Qed.

Lemma counter_key en clock oth q e k n x d : counter_asks q = Some (k, n) -> before clock oth e k = Some (DScalar x, d) ->
  match read_int x with
  | inl z => does en clock oth q e k (Some (DScalar (SInteger (as_i64 (z + n))), d)) (eq (number (z + n)))
  | inr er => does en clock oth q e k (Some (DScalar x, d)) (eq (match er with ENotInt => not_integer | _ => wrong_type end))
  end.
Proof.
  intros H B. destruct (counter_plan (clock 0%nat) q k n H) as [P Q].
  assert (I : forall dd, view (clock 1%nat) dd k = Some (DScalar x, d) ->
    match scalar_as_i64 x with
    | OOk z => snd (incr_apply (clock 1%nat) k n dd) = OOk (wrap_i64 (z + n)) /\
        contents (fst (incr_apply (clock 1%nat) k n dd)) k = Some (DInteger (wrap_i64 (z + n)), d)
    | OErr er => snd (incr_apply (clock 1%nat) k n dd) = OErr er /\ contents (fst (incr_apply (clock 1%nat) k n dd)) k = contents dd k
    | OPanic => False
    end).
  { intros dd V. destruct (incr_apply _ _ _ _) as [d1 r1] eqn:I. destruct (incr_spec _ _ _ _ _ _ I) as [_ J]. by rewrite V in J. }
  unfold read_int. destruct (scalar_as_i64 x) as [z|er|] eqn:X.
  - eapply (does_flat _ _ _ _ _ (CWrite (WIncr k n)) (Some (DScalar x, d)) _ (OOk (PInt (wrap_i64 (z + n))))); [done|done| |].
    + intros dd V. cbn [ckey wkey flat_cmd wapply] in *. destruct (view_is _ _ _ _ V) as [_ L]. cbn [snd] in L.
      destruct (I dd V) as [I1 I2]. unfold no_exp. destruct (incr_apply _ _ _ _) as [d1 r1]. cbn [fst snd] in *. subst r1. split; [|done].
      unfold view. rewrite I2, decide_True by done. by rewrite wrap_as.
    + cbn [MeaningFacts.answered]. rewrite Q, wrap_as. done.
  - eapply (does_flat _ _ _ _ _ (CWrite (WIncr k n)) (Some (DScalar x, d)) _ (OErr er)); [done|done| |].
    + intros dd V. cbn [ckey wkey flat_cmd wapply] in *. destruct (I dd V) as [I1 I2]. unfold no_exp. destruct (incr_apply _ _ _ _) as [d1 r1]. cbn [fst snd] in *. subst r1. split; [|done].
      rewrite <- V. unfold view. by rewrite I2.
    + destruct x; cbn in X; try (destruct (atoi_i64 _)); try discriminate X; injection X as <-; done.
  - exfalso. by apply (scalar_no_panic x).
Qed.

Lemma contents_view t b k y : db_contents b k = y -> db_view t b k = match y with Some (x, d) => while_alive t x d | None => None end.
Proof. intros <-. unfold db_view, view, db_contents, while_alive. destruct (contents _ k) as [[x d]|]; [|done]. done. Qed.

Lemma set_key en clock oth k x o e y : before clock oth e k = y ->
  does en clock oth (QSet k x o) e k (if set_stores (so_nx o) y then while_alive (clock 1%nat) (DScalar x) (set_asks (clock 0%nat) o y) else y)
      (fun r => if so_get o then
         match y with
         | Some (z, _) => r = given_back en z
         | None => so_nx o <> NxXx_None \/ so_expires o = ExKeepttl -> r = FNull
         end
       else r = all_ok).
Proof.
  intros B. set (ea := set_expires_at (clock 0%nat) (so_expires o)).
  destruct (serve_any en clock oth (QSet k x o) e (CWrite (WSet k x ea (so_nx o))) eq_refl) as [S1 S2].
  destruct (db_cmd_refines_slot (e_ho en) (clock 1%nat) (CWrite (WSet k x ea (so_nx o))) (ef_db (oth 0%nat e))) as [C R]. cbn [ckey wkey] in C, R.
  unfold before in B. cbn [flat_cmd wapply] in C, R. set (d := snd (next_id (ef_db (oth 0%nat e) (get_slot k)))) in *.
  assert (V : view (clock 1%nat) d k = y) by exact B.
  destruct (set_apply (clock 1%nat) k x ea (so_nx o) d) as [[d' old] u] eqn:E. cbn [fst snd] in *.
  destruct (set_spec _ _ _ _ _ _ _ _ _ E) as (_ & H2 & H3). rewrite V in H2, H3. rewrite R in S2.
  assert (DL : set_deadline ea y = set_asks (clock 0%nat) o y).
  { unfold ea, set_asks. destruct (so_expires o); cbn [set_expires_at set_deadline]; rewrite ?add_mul_mod, ?add_mod; done. }
  rewrite DL in H2. unfold does. destruct (serve_request en clock oth (QSet k x o) e) as [e' rr]. cbn [fst snd] in S1, S2.
  cbn [answer] in S2. subst rr. eexists e', _. split; [reflexivity|]. split; [|split].
  - destruct (so_get o); [|done]. destruct y as [[z dz]|].
    + assert (old = z) as ->; [|by destruct z as [[]| | | |]].
      destruct (decide (so_nx o = NxXx_None)) as [N|N]; [|by apply H3; left].
      unfold set_apply in E. rewrite N in E. destruct ea as [ex|]; [|by apply H3; right].
      rewrite dict_insert_put in E. injection E as <- <- <-. destruct (view_is _ _ _ _ V) as [VC _].
      unfold contents in VC. change (inner d) with (inner (ef_db (oth 0%nat e) (get_slot k))) in VC.
      destruct (inner (ef_db (oth 0%nat e) (get_slot k)) !! k) as [v|]; [|done]. by injection VC as VC _.
    + intros N. rewrite H3; [done|]. destruct N as [N|N]; [by left|right]. unfold ea. by rewrite N.
  - rewrite S1. destruct (set_stores (so_nx o) y).
    + by rewrite (contents_view _ _ _ _ (eq_trans C H2)).
    + rewrite <- V. rewrite (contents_view _ _ _ _ C), H2. unfold view. by destruct (contents d k) as [[? ?]|].
  - rewrite S1. intros j J. by apply db_cmd_other.
Qed.

Lemma ttl_key en clock oth k e y : before clock oth e k = y ->
  does en clock oth (QPttl k) e k y (eq (remaining (clock 1%nat) y (fun ms => ms))) /\
  does en clock oth (QTtl k) e k y (eq (remaining (clock 1%nat) y (fun ms => ((ms + 500) mod 2 ^ 64) / 1000)%Z)).
Proof.
  intros B. 
  assert (F : forall d, view (clock 1%nat) d k = y -> view (clock 1%nat) (fst (flat_cmd (e_ho en) (clock 1%nat) (CRead (RTtl k)) d)) k = y /\
    snd (flat_cmd (e_ho en) (clock 1%nat) (CRead (RTtl k)) d) =
      OOk (PTtl match y with None => TtlNotExist | Some (_, e) => if (e =? 0)%N then TtlNone else Ttl (e - clock 1%nat) end)).
  { intros d V. cbn [flat_cmd ckey rkey]. split; [rewrite <- V; apply view_same, rapply_same|]. cbn [rapply snd]. by rewrite ttl_spec, V. }
  assert (L : forall x d, y = Some (x, d) -> d <> 0%N -> (clock 1%nat < d)%N).
  { intros x d -> N. unfold before in B. unfold db_view in B. destruct (view_is _ _ _ _ B) as [_ [|]]; done. }
  split; (eapply (does_flat _ _ _ _ _ (CRead (RTtl k))); [reflexivity|exact B|exact F|]); cbn [MeaningFacts.answered answer remaining]; destruct y as [[x d]|]; try done.
  all: unfold remaining; destruct (d =? 0)%N eqn:D; [done|]; specialize (L x d eq_refl ltac:(lia)).
  - unfold number, u64_as_i64. f_equal. symmetry. rewrite wrap_as. f_equal. lia.
  - unfold number, u64_as_i64. f_equal. symmetry. rewrite wrap_as. f_equal. unfold add_u64, wrap_u64, two64. lia.
Qed.

Lemma object_key en clock oth sub k ps e y c er : before clock oth e k = y ->
  (sub ∈ [bs "IDLETIME"; bs "idletime"] /\ c = RLastVisit k /\ er = SNoIdle) \/ (sub ∈ [bs "FREQ"; bs "freq"] /\ c = RVisitTimes k /\ er = SNoFreq) ->
  does en clock oth (QObject sub (k :: ps)) e k y
    (fun r => (exists z, r = FInteger z) \/ (y = None /\ r = FError (err_text en [] er))).
Proof.
  intros B H.
  assert (P : plan_of (clock 0%nat) (QObject sub (k :: ps)) = AOk (PCmds [CRead c]) /\ ckey (CRead c) = k).
  { destruct H as [(H & -> & _)|(H & -> & _)]; split; try done; cbn [plan_of];
    repeat (apply elem_of_cons in H as [->|H]; [done|]); by apply elem_of_nil in H. }
  destruct P as [P K].
  destruct (serve_any en clock oth (QObject sub (k :: ps)) e (CRead c) P) as [S1 S2].
  destruct (db_cmd_refines_slot (e_ho en) (clock 1%nat) (CRead c) (ef_db (oth 0%nat e))) as [C R]. rewrite K in C, R.
  unfold does. destruct (serve_request _ _ _ _ _) as [e' rr]. cbn [fst snd] in S1, S2.
  set (d := ef_db (oth 0%nat e) (get_slot k)) in *. unfold before, db_view in B. fold d in B.
  assert (A : exists r, snd (flat_cmd (e_ho en) (clock 1%nat) (CRead c) d) = OOk (POptN r) /\ (r = None -> y = None)).
  { assert (V : inner d !! k = None -> y = None) by (intros V; rewrite <- B; unfold view, contents; by rewrite V).
    assert (W : forall A (g : value -> A), match inner d !! k with Some v => Some (g v) | None => None end = None -> y = None).
    { intros A g. destruct (inner d !! k); [done|]. by intros _; apply V. }
    cbn [flat_cmd]. destruct H as [(_ & -> & _)|(_ & -> & _)]; cbn [rapply snd]; eexists; (split; [reflexivity|]); apply W. }
  destruct A as (r & A & AN). rewrite R in S2. rewrite A in S2. cbn [answer] in S2.
  assert (SS : exists f, rr = inl f /\ ((exists z, f = FInteger z) \/ y = None /\ f = FError (err_text en [] er))).
  { subst rr. destruct H as [(H & _ & ->)|(H & _ & ->)]; repeat (apply elem_of_cons in H as [->|H]; [|]); try (by apply elem_of_nil in H);
      cbn; destruct r; eexists; (split; [reflexivity|]); eauto. }
  destruct SS as (f & -> & SS). exists e', f. split; [done|]. split; [done|]. rewrite S1. split.
  - rewrite <- B. unfold db_view at 1, view. change (contents (fst (db_cmd (e_ho en) (clock 1%nat) (CRead c) (ef_db (oth 0%nat e))) (get_slot k)) k)
      with (db_contents (fst (db_cmd (e_ho en) (clock 1%nat) (CRead c) (ef_db (oth 0%nat e)))) k). rewrite C.
    change (view (clock 1%nat) (fst (flat_cmd (e_ho en) (clock 1%nat) (CRead c) d)) k = view (clock 1%nat) d k). cbn [flat_cmd fst].
    apply view_same, rapply_same.
  - intros j J. apply db_cmd_other. by rewrite K.
Qed.

(** Every request does what [means_key] says, whatever other connections did before it. *)
Theorem C107_key en clock oth q e k y y' P : horder_ok (e_ho en) ->
  means_key en read_int (clock 0%nat) (clock 1%nat) q k y y' P -> before clock oth e k = y -> does en clock oth q e k y' P.
Proof.
  intros HO M B. destruct M.
  - by apply C93_lists.
  - by apply hashes_do.
  - by apply C95_sets.
  - by apply C96_queries.
  - by apply C96_lex_queries.
  - by apply C96_removals.
  - by apply C96_lex_removals.
  - by apply C96_zrem.
  - by apply C96_zrank.
  - by apply C96_zrank.
  - subst new. by apply C96_zadd.
  - subst y. apply C97_get.
  - by apply set_key.
  - by apply C97_setex.
  - by apply C97_counter_new.
  - pose proof (counter_key en clock oth q e k n x d H B) as C. by rewrite H0 in C.
  - pose proof (counter_key en clock oth q e k n x d H B) as C. by rewrite H0 in C.
  - subst y acts. by apply C97_expire.
  - by apply ttl_key.
  - by apply ttl_key.
  - by eapply C98_wrong_type.
  - subst y. apply C99_exists.
  - destruct (C99_del en clock oth e k) as (e' & E1 & E2 & E3). eexists e', _. split; [exact E1|]. split; [|split; [|done]].
    + case_bool_decide as R; [by left|]. right. split; [|done]. subst y. unfold before, db_view, view, contents. unfold db_raw in R.
      destruct (inner (ef_db (oth 0%nat e) (get_slot k)) !! k); [|done]. exfalso. eauto.
    + unfold db_view, view, contents. change (inner (ef_db e' (get_slot k)) !! k) with (db_raw (ef_db e') k). by rewrite E2.
  - subst y. apply (proj2 (C99_debug en clock oth e [] ps)).

  - eapply (object_key en clock oth sub k ps e y _ SNoIdle B). left. done.
  - eapply (object_key en clock oth sub k ps e y _ SNoFreq B). right. done.
  - subst y. by apply C99_dump.
  - subst y. by apply C99_restore.
  - by apply C99_restore_busy with (x := x) (d := d).
  - subst y. by apply C99_restore_malformed.
Qed.
Print Assumptions C107_key.
Example C107_key_case :
  means_key ex_env read_int 5 5 (QSet (bs "t") (SBytes (bs "new")) (SetOpts ExKeepttl NxXx_Xx true)) (bs "t")
    (Some (DBytes (bs "-41z"), 105000%N)) (Some (DBytes (bs "new"), 105000%N)) (fun r => r = FBulk (bs "-41z")) /\
  ex_before (bs "t") = Some (DBytes (bs "-41z"), 105000%N).
Proof. split; [|vm_compute; done]. apply (mk_set_value ex_env read_int 5 5 (bs "t") (SBytes (bs "new")) (SetOpts ExKeepttl NxXx_Xx true) (Some (DBytes (bs "-41z"), 105000%N))). Qed.

(** ** Conversations *)
Lemma later_later t t' m k : (t <= t')%N -> later t' (later t m) k = later t' m k.
Proof.
  intros L. unfold later. destruct (m k) as [[x d]|]; [|done]. unfold while_alive. destruct (decide (lives t d)) as [A|A]; [done|].
  rewrite decide_False; [done|]. unfold lives in *. lia.
Qed.
Lemma raw_view t b b' k : db_raw b k = db_raw b' k -> db_view t b k = db_view t b' k.
Proof. intros H. unfold db_view, view, contents. unfold db_raw in H. by rewrite H. Qed.
Lemma view_later t t' b k : (t <= t')%N -> db_view t' b k = match db_view t b k with Some (x, d) => while_alive t' x d | None => None end.
Proof.
  intros L. unfold db_view, view, while_alive. destruct (contents _ k) as [[x d]|]; [|done]. destruct (decide (lives t d)) as [A|A]; [done|].
  rewrite decide_False; [done|]. unfold lives in *. lia.
Qed.
Lemma shows_later t t' b m : (t <= t')%N -> shows t b m -> shows t' b (later t' m).
Proof. intros L S t2 k L2. rewrite (S t2 k) by lia. by rewrite later_later. Qed.

(** One request in a state that shows [m]. *)
Lemma means_served en clock q e t m m1 P : horder_ok (e_ho en) -> shows t (ef_db e) m -> (t <= clock 1%nat)%N ->
  means en read_int (clock 0%nat) (clock 1%nat) q (later (clock 1%nat) m) m1 P ->
  exists e' r, serve_request en clock alone q e = (e', inl r) /\ P r /\ shows (clock 1%nat) (ef_db e') m1.
Proof.
  intros HO S L M. pose proof (shows_later _ _ _ _ L S) as S1. set (t1 := clock 1%nat) in *.
  inversion M; subst.
  - assert (B : before clock alone e k = later t1 m k) by (unfold before; cbn; apply S; lia).
    destruct (C107_key en clock alone q e k _ _ _ HO H B) as (e' & r & E & R & V & O). exists e', r. split; [done|]. split; [done|].
    intros t' j L'. unfold update, later at 1. destruct (decide (j = k)) as [->|J].
    + fold t1 in V. rewrite (view_later t1) by done. by rewrite V.
    + rewrite (raw_view t' (ef_db e') (ef_db e)); [|by apply O]. by apply S1.
  - rewrite (C99_no_database en clock alone q e f H). eauto.
  - rewrite (proj1 (C99_debug en clock alone e sub ps) H). eauto.
  - assert (E : serve_request en clock alone (QObject sub ps) e = (e, inl all_ok)); [|rewrite E; eauto].
    unfold serve_request. cbn [plan_of]. rewrite !elem_of_cons in H. rewrite !(bool_decide_eq_false_2 _) by tauto. done.
  - destruct (C99_flushall en clock alone e sync) as (e' & E & F & _). exists e', all_ok. split; [done|]. split; [done|].
    intros t' k _. unfold db_view, view, contents. change (inner (ef_db e' (get_slot k)) !! k) with (db_raw (ef_db e') k). by rewrite F.
Qed.

(** Requests served one after the other, each explained by the store that results from those before. *)
Lemma conversation en l : forall t e m,
  horder_ok (e_ho en) -> shows t (ef_db e) m -> forward t l -> covered en read_int m l ->
  let '(e', rs) := serial en l e in
  exists fs m', map snd rs = map inl fs /\ map fst rs = map sv_conn l /\ talk en read_int m l fs m' /\
    shows (List.last (map (fun s => sv_clock s 1%nat) l) t) (ef_db e') m'.
Proof.
  induction l as [|s l IH]; intros t e m HO S F C.
  - cbn. exists [], m. split; [done|]. split; [done|]. split; [constructor|done].
  - cbn [serial]. destruct C as [(m1 & P & M) C].
    inversion F as [|? ? F1 F2]; subst. cbn [map] in F1, F2. inversion F2 as [|? ? L1 L2]; subst.
    destruct (means_served en (sv_clock s) (sv_req s) e t m m1 P HO S L1 M) as (e1 & r & E & R & S1). rewrite E.
    specialize (IH (sv_clock s 1%nat) e1 m1 HO S1 F1 (C m1 P M)). destruct (serial en l e1) as [e2 rs].
    destruct IH as (fs & m' & I1 & I2 & I3 & I4). exists (r :: fs), m'. cbn [map fst snd]. rewrite I1, I2.
    split; [done|]. split; [done|]. split; [by econstructor|].
    replace (List.last (sv_clock s 1%nat :: map (fun s => sv_clock s 1%nat) l) t) with (List.last (map (fun s => sv_clock s 1%nat) l) (sv_clock s 1%nat)); [done|].
    clear. generalize (sv_clock s 1%nat). induction (map (fun s => sv_clock s 1%nat) l) as [|x l' IH]; intros y; [done|]. destruct l'; [done|]. cbn in *. rewrite IH. 
    cbn. rewrite <- (IH x). done.
Qed.
Theorem C107_conversation : exists num, reads_counters num /\ forall en l t e m,
  horder_ok (e_ho en) -> shows t (ef_db e) m -> forward t l -> covered en num m l ->
  let '(e', rs) := serial en l e in
  exists fs m', map snd rs = map inl fs /\ map fst rs = map sv_conn l /\ talk en num m l fs m' /\
    shows (List.last (map (fun s => sv_clock s 1%nat) l) t) (ef_db e') m'.
Proof.
  exists read_int. split; [apply read_int_counters|]. intros en l. exact (conversation en l).
Qed.
Print Assumptions C107_conversation.

(** ** Requests that are always explained *)
Definition neat_value (y : option (data * N)) : Prop := forall h v d, y = Some (DZSet h v, d) -> exists z, DZSet h v = zset_data z /\ no_nans z.
Lemma neat_update k y m : neat m -> neat_value y -> neat (update k y m).
Proof. intros N Y j h v d. unfold update. destruct (decide (j = k)); [apply Y|apply N]. Qed.
Lemma neat_later t m : neat m -> neat (later t m).
Proof.
  intros N k h v d H. unfold later, while_alive in H. destruct (m k) as [[x dl]|] eqn:E; [|done]. destruct (decide _); [|done].
  injection H as -> ->. by eapply N.
Qed.
Lemma neat_zset (d : N) (m : option (gmap bytes f64)) : (forall x, m = Some x -> no_nans x) -> neat_value (stored zset_data d m).
Proof. intros N h v dl H. destruct m as [x|]; [|done]. injection H as <- <-. exists x. split; [done|by apply N]. Qed.
Lemma neat_alive t x d : (forall h v, x <> DZSet h v) -> neat_value (while_alive t x d).
Proof. intros N h v dl H. unfold while_alive in H. destruct (decide _); [|done]. injection H as -> _. by exfalso; eapply N. Qed.
Lemma neat_none : neat_value None.
Proof. by intros h v d H. Qed.
Lemma zadd_no_nans nx gl ns : forall p, Forall (fun n => not_nan (n_score n)) ns -> no_nans (fst p) -> no_nans (fst (fold_left (code_zadd_one nx gl) ns p)).
Proof.
  induction ns as [|n ns IH]; intros p F N; [done|]. inversion F; subst. cbn [fold_left]. apply IH; [done|].
  unfold code_zadd_one. destruct (code_zadd_table _ _ _ _); [|done]. cbn [fst]. by apply no_nans_insert.
Qed.
Lemma neat_means_key en num t0 t1 q k y y' P : everyday q -> neat_value y -> means_key en num t0 t1 q k y y' P -> neat_value y'.
Proof.
  intros PL N M.
  assert (R : forall (ms : list bytes) (d : BinNums.N) (m : option (gmap bytes f64)), (forall x, m = Some x -> no_nans x) -> neat_value (stored zset_data d (without_members ms <$> m))).
  { intros ms d m H. apply neat_zset. intros x X. destruct m as [z|]; [|done]. injection X as <-. apply no_nans_filter. by apply H. }
  destruct M; try exact N; try apply neat_none; try (by apply R); try (by apply neat_alive); try done.
  - intros h v dl X. destruct (fst (f s)); done.
  - intros h v dl X. destruct (fst (f s)); done.
  - intros h v dl X. destruct (fst (f s)); done.
  - apply R. intros x X. by apply H1.
  - intros h v dl X. injection X as <- <- <-. exists new. split; [done|]. subst new. apply zadd_no_nans; [by apply List.Forall_map|].
    cbn [fst]. destruct m as [z|]; [by apply H2|apply no_nans_empty].
  - destruct (set_stores _ _); [by apply neat_alive|done].
  - destruct y as [[x d]|]; [|done]. destruct acts; [|done]. intros h v dl X. unfold while_alive in X. destruct (decide _); [|done].
    injection X as -> ->. by apply (N h v d).
Qed.
Lemma neat_means en num t0 t1 q m m1 P : everyday q -> neat m -> means en num t0 t1 q m m1 P -> neat m1.
Proof.
  intros PL N M. inversion M; subst; try done.
  apply neat_update; [done|]. eapply neat_means_key; [done| |eassumption]. intros h v d. apply N.
Qed.
Lemma plain_explained en num t0 t1 q m : everyday q -> neat m -> exists m1 P, means en num t0 t1 q m m1 P.
Proof.
  intros PL N.
  assert (K : forall k y P, means_key en num t0 t1 q k (m k) y P -> exists m1 P, means en num t0 t1 q m m1 P) by (intros; eexists _, _; by apply m_key).
  (* by kind of value: the request's own kind, no value, another kind *)
  assert (KS : forall k kd, works_on q = Some (k, kd) -> bounds_read q ->
    (forall x d, m k = Some (x, d) -> kind_of x = kd -> exists m1 P, means en num t0 t1 q m m1 P) ->
    (m k = None -> exists m1 P, means en num t0 t1 q m m1 P) -> exists m1 P, means en num t0 t1 q m m1 P).
  { intros k kd W B H1 H2. destruct (m k) as [[x d]|] eqn:E; [|by apply H2]. destruct (decide (kind_of x = kd)) as [KD|KD]; [by eapply H1|].
    eapply (K k). rewrite E. by eapply mk_wrong_type. }
  assert (LI : forall k f, list_meaning en q = Some (k, f) -> works_on q = Some (k, KList) -> bounds_read q -> exists m1 P, means en num t0 t1 q m m1 P).
  { intros k f L W B. apply (KS k KList W B).
    - intros x d E KD. destruct x; try done. eapply (K k). rewrite E. by apply (mk_list en num t0 t1 q k f (Some l) d).
    - intros E. eapply (K k). rewrite E. by apply (mk_list en num t0 t1 q k f None 0%N). }
  assert (HA : forall k f, hash_meaning en num q = Some (k, f) -> works_on q = Some (k, KHash) -> bounds_read q -> exists m1 P, means en num t0 t1 q m m1 P).
  { intros k f L W B. apply (KS k KHash W B).
    - intros x d E KD. destruct x as [|h| | |]; try done. eapply (K k). rewrite E. by apply (mk_hash en num t0 t1 q k f (Some h) d).
    - intros E. eapply (K k). rewrite E. by apply (mk_hash en num t0 t1 q k f None 0%N). }
  assert (SE : forall k f, set_meaning_of q = Some (k, f) -> works_on q = Some (k, KSet) -> bounds_read q -> exists m1 P, means en num t0 t1 q m m1 P).
  { intros k f L W B. apply (KS k KSet W B).
    - intros x d E KD. destruct x as [| | |h|]; try done. eapply (K k). rewrite E. by apply (mk_set en num t0 t1 q k f (Some h) d).
    - intros E. eapply (K k). rewrite E. by apply (mk_set en num t0 t1 q k f None 0%N). }
  assert (ZS : forall k, works_on q = Some (k, KZset) -> bounds_read q ->
    (forall z d, (z = None -> d = 0%N) -> (forall x, z = Some x -> no_nans x) -> exists y P, means_key en num t0 t1 q k (stored zset_data d z) y P) ->
    exists m1 P, means en num t0 t1 q m m1 P).
  { intros k W B H. apply (KS k KZset W B).
    - intros x d E KD. destruct x as [| | | |h v]; try done. destruct (N k h v d E) as (z & Z & NN).
      destruct (H (Some z) d) as (y & P & M); [done|by intros x [= <-]|]. eapply (K k). rewrite E, Z. exact M.
    - intros E. destruct (H None 0%N) as (y & P & M); [done..|]. eapply (K k). rewrite E. exact M. }
  assert (CO : forall k n, counter_asks q = Some (k, n) -> works_on q = Some (k, KString) -> bounds_read q -> exists m1 P, means en num t0 t1 q m m1 P).
  { intros k n L W B. apply (KS k KString W B).
    - intros x d E KD. destruct x as [x| | | |]; try done.
      destruct (num x) eqn:X; eapply (K k); rewrite E; [by eapply mk_counter|by eapply mk_counter_refused].
    - intros E. eapply (K k). rewrite E. by apply mk_counter_new. }
  assert (ZQ : forall k, works_on q = Some (k, KZset) -> (exists k sel sc, zquery q k sel sc) -> exists m1 P, means en num t0 t1 q m m1 P).
  { intros k W (k' & sel & sc & Q). assert (k' = k) as -> by (inversion Q; subst; cbn in W; congruence).
    apply (ZS k W).
    - inversion Q; subst; cbn; try (by eauto); rewrite H; eauto.
    - intros z d H1 H2. eexists _, _. by apply mk_query with (sel := sel) (sc := sc). }
  destruct q; cbn [everyday] in PL; try done.
  all: try (eapply LI; [reflexivity|reflexivity|exact I]; fail). all: try (eapply HA; [reflexivity|reflexivity|exact I]; fail).
  all: try (eapply SE; [reflexivity|reflexivity|exact I]; fail). all: try (eapply CO; [reflexivity|reflexivity|exact I]; fail). all: try (eapply ZQ; [reflexivity|exact PL]; fail).
  all: try (eexists _, _; apply m_none; reflexivity).
  all: try (eapply K; (apply mk_pttl || apply mk_ttl || apply mk_get || apply mk_set_value)).
  all: try (eapply K; apply mk_setex; reflexivity).
  all: try (eapply K; eapply mk_expire; reflexivity).
  - destruct PL as (k & ->). eapply K, mk_del.
  - destruct PL as (k & ->). eapply K, mk_exists.
  - destruct ps as [|k ps]; [done|]. destruct (decide (sub = bs "object")) as [->|NE]; [eapply K, mk_debug|]. eexists _, _. by apply m_debug.
  - eexists _, _. apply m_flush.
  - destruct ps as [|k ps]; [done|]. destruct (decide (sub ∈ [bs "IDLETIME"; bs "idletime"])) as [I1|I1]; [by eapply K, mk_idletime|].
    destruct (decide (sub ∈ [bs "FREQ"; bs "freq"])) as [I2|I2]; [by eapply K, mk_freq|]. eexists _, _. apply m_object.
    rewrite !elem_of_cons in *. tauto.
  - destruct PL as [I F]. apply (ZS k eq_refl Logic.I). intros z d H1 H2. eexists _, _. by eapply mk_zadd.
  - apply (ZS k eq_refl Logic.I). intros z d H1 H2. eexists _, _. by eapply mk_zrank.
  - apply (ZS k eq_refl Logic.I). intros z d H1 H2. eexists _, _. by eapply mk_zrem.
  - apply (ZS k eq_refl Logic.I). intros z d H1 H2. eexists _, _. eapply mk_removal; [constructor|done|done].
  - destruct PL as (k' & sel & R). assert (k' = k) as -> by (by inversion R). apply (ZS k eq_refl).
    + inversion R; subst. cbn. eauto.
    + intros z d H1 H2. eexists _, _. by eapply mk_removal.
  - apply (ZS k eq_refl Logic.I). intros z d H1 H2. eexists _, _. by eapply mk_zrevrank.
Qed.
(** Conversations of everyday requests are explained whatever they are. *)
Theorem C107_everyday en num m l : neat m -> Forall (fun s => everyday (sv_req s)) l -> covered en num m l.
Proof.
  intros N F. revert m N. induction F as [|s l P _ IH]; intros m N; [done|]. cbn [covered].
  pose proof (neat_later (sv_clock s 1%nat) m N) as N1. split; [by apply plain_explained|].
  intros m1 Q M. apply IH. by eapply neat_means.
Qed.
Print Assumptions C107_everyday.

(** ** One client over the wire *)
Fixpoint entries (clock : nat -> nat -> N) (qs : list request) : list serial_entry :=
  match qs with
  | [] => []
  | q :: qs' => Served 0 q (clock 0%nat) :: entries (fun i => clock (S i)) qs'
  end.
Lemma session_serial en fs qs : Forall2 (fun f q => from_frame f = Some q) fs qs -> forall clock e rs e' o fs',
  session en clock (fun _ => alone) e fs rs e' o -> map snd (snd (serial en (entries clock qs) e)) = map inl fs' ->
  o = None /\ rs = fs' /\ e' = fst (serial en (entries clock qs) e).
Proof.
  induction 1 as [|f q fs qs F _ IH]; intros clock e rs e' o fs' S E.
  - inversion S; subst. cbn in *. by destruct fs'.
  - cbn [entries serial sv_clock sv_req sv_conn] in *. inversion S as [|? ? ? ? ? e1 r rs1 ? ? SF SR|? ? ? ? ? ? h SF]; subst; unfold serve_frame in SF; rewrite F in SF; rewrite SF in E |- *.
    + specialize (IH _ _ _ _ _ (tl fs') SR). destruct (serial en (entries _ qs) e1) as [e2 rs2] eqn:SS. cbn [snd fst map] in E, IH |- *.
      destruct fs' as [|r' fs']; [done|]. cbn [map] in E. injection E as -> E. destruct (IH E) as (-> & -> & ->). done.
    + destruct (serial _ _ _) as [e2 rs2]. cbn in E. by destruct fs'.
Qed.
(** Whatever the packets: the bytes written back are those of the replies of the conversation, and the connection ends
    cleanly when the client closes it. *)
Theorem C107_bytes : exists num, reads_counters num /\ forall en clock fs qs chunks t e m,
  horder_ok (e_ho en) -> Forall wf_frame fs -> Forall2 (fun f q => from_frame f = Some q) fs qs ->
  Forall (fun c => c <> []) chunks -> concat chunks = concat (map write fs) ->
  shows t (ef_db e) m -> forward t (entries clock qs) -> covered en num m (entries clock qs) ->
  let '(e', rs, h) := connection en clock (fun _ => alone) chunks e in
  h = HClean /\ exists m', talk en num m (entries clock qs) rs m' /\
    shows (List.last (map (fun s => sv_clock s 1%nat) (entries clock qs)) t) (ef_db e') m'.
Proof.
  exists read_int. split; [apply read_int_counters|]. intros en clock fs qs chunks t e m HO W Q N E S F C.
  pose proof (C65_connection_is_a_session en clock (fun _ => alone) chunks e) as SS. rewrite (C04_pipeline fs chunks W N E) in SS.
  destruct (connection en clock (fun _ => alone) chunks e) as [[e' rs] h]. destruct SS as (o & SS & O).
  pose proof (conversation en (entries clock qs) t e m HO S F C) as T. 
  pose proof (session_serial en fs qs Q clock e rs e' o) as I.
  destruct (serial en (entries clock qs) e) as [e2 rs2]. destruct T as (fs' & m' & T1 & _ & T3 & T4).
  destruct (I fs' SS T1) as (-> & -> & ->). destruct O as [_ ->]. split; [done|]. exists m'. done.
Qed.
Print Assumptions C107_bytes.

(** ** Many clients *)
(** What connection [i] is told in a conversation. *)
Definition told (i : nat) (l : list serial_entry) (fs : list frame) : list frame :=
  map snd (List.filter (fun p => Nat.eqb (fst p) i) (combine (map sv_conn l) fs)).
(** However the steps of the connections interleave, there is one conversation that explains the database and every
    reply; it contains what the clients asked, in their order, and a request answered before another one was read comes
    first (C75). *)
Theorem C107_clients : exists num, reads_counters num /\ forall en b m ins evs x,
  horder_ok (e_ho en) -> shows 0 b m -> neat m -> Forall (Forall (fun q => single q /\ everyday q)) ins ->
  csteps en evs (cs_start b ins) = Some x -> StronglySorted N.le (map snd evs) ->
  exists l fs m' t, talk en num m l fs m' /\ shows t (cs_db x) m' /\
    forall i k, cs_conns x !! i = Some k ->
      (exists rest, nth i ins [] = asked i l ++ rest) /\
      (exists last, told i l fs = k_out k ++ last /\ length last <= 1) /\
      (k_pc k = KIdle -> told i l fs = k_out k /\ nth i ins [] = asked i l ++ k_in k).
Proof.
  exists read_int. split; [apply read_int_counters|]. intros en b m ins evs x HO S N A H T.
  assert (SI : Forall (Forall single) ins) by (eapply List.Forall_impl; [|exact A]; intros qs Q; eapply List.Forall_impl; [|exact Q]; by intros ? []).
  destruct (C75_one_at_a_time_partial en b ins evs x SI H) as (L & L1 & _). destruct (L1 (length evs)) as (y & Y & EX & _ & SO); [lia|].
  rewrite firstn_all in Y, SO. rewrite H in Y. injection Y as <-. specialize (SO T). set (l := L (length evs)) in *. clearbody l. clear L L1.
  unfold explains in EX. pose proof (conversation en l 0%N (Effects b [] []) m HO S) as C.
  destruct (serial en l (Effects b [] [])) as [e rs]. destruct EX as (DB & CL & CO).
  assert (EV : Forall (fun s => everyday (sv_req s)) l).
  { apply List.Forall_forall. intros s IN. rewrite List.Forall_forall in CL. pose proof (CL s IN) as LT. apply lookup_lt_is_Some in LT as [k K].
    destruct (CO _ _ K) as [(rest & R) _].
    assert (M : In (sv_req s) (nth (sv_conn s) ins [])).
    { rewrite R. apply in_or_app. left. unfold asked. apply in_map, filter_In. split; [done|]. apply Nat.eqb_refl. }
    rewrite List.Forall_forall in A. destruct (nth_in_or_default (sv_conn s) ins []) as [I|I]; [|by rewrite I in M].
    specialize (A _ I). rewrite List.Forall_forall in A. by apply A. }
  destruct C as (fs & m' & C1 & C2 & C3 & C4).
  { constructor; [done|]. apply List.Forall_forall. lia. }
  { by apply C107_everyday. }
  exists l, fs, m', (List.last (map (fun s => sv_clock s 1%nat) l) 0%N). split; [done|]. split; [by rewrite <- DB|].
  assert (TO : forall i, answered i rs = map inl (told i l fs)).
  { intros i. unfold answered, told. rewrite <- C2. clear -C1. revert fs C1. induction rs as [|[j r] rs IH]; intros fs C1; [done|].
    destruct fs as [|f fs]; [done|]. cbn in C1. injection C1 as -> C1. cbn [List.filter map fst snd combine].
    destruct (Nat.eqb j i); cbn [map]; by rewrite (IH fs C1). }
  assert (J : forall u v : list frame, map (@inl frame hend) u = map inl v -> u = v).
  { induction u; intros [|] J; try done. cbn in J. injection J as -> J. by f_equal; auto. }
  intros i k K. destruct (CO i k K) as (H1 & (la & H2 & H3) & H4). split; [done|]. split.
  - rewrite TO in H2. exists (skipn (length (k_out k)) (told i l fs)).
    assert (H5 : firstn (length (k_out k)) (told i l fs) = k_out k).
    { apply J. rewrite <- firstn_map, H2. rewrite <- (map_length (@inl frame hend) (k_out k)) at 1. by rewrite firstn_app, firstn_all, Nat.sub_diag, app_nil_r. }
    split; [rewrite <- H5 at 1; symmetry; apply firstn_skipn|].
    apply (f_equal length) in H2. rewrite app_length, !map_length in H2. rewrite skipn_length. lia.
  - intros I. destruct (H4 I) as [H5 H6]. split; [|done]. apply J. by rewrite <- TO.
Qed.
Print Assumptions C107_clients.

(** Concrete cases: a conversation over the wire, in two packets, and two clients at once. *)
Definition c107_lines : list (list bytes) :=
  [[bs "SET"; bs "k"; [x0d; x0a; xff]; bs "PX"; bs "3000"]; [bs "lpush"; bs "l"; bs "a"; bs "b"]; [bs "GET"; bs "l"]; [bs "ZADD"; bs "z"; bs "2"; bs "m"];
   [bs "get"; bs "k"]; [bs "DEL"; bs "l"]].
Definition c107_frames : list frame := map req c107_lines.
Definition c107_asks : list request :=
  [QSet (bs "k") (SBytes [x0d; x0a; xff]) (SetOpts (ExPx 3000) NxXx_None false); QLpush (bs "l") [SBytes (bs "a"); SBytes (bs "b")]; QGet (bs "l");
   QZadd (bs "z") (ZaddOpts NxXx_None GtLt_None false false) [(f64_of_Z 2, bs "m")]; QGet (bs "k"); QDel [bs "l"]].
Definition c107_bytes : bytes := concat (map write c107_frames).
Example C107_bytes_case :
  Forall2 (fun f q => from_frame f = Some q) c107_frames c107_asks /\ Forall wf_frame c107_frames /\
  shows 0 (ef_db ex_start) nothing_stored /\ forward 0 (entries ex_clock c107_asks) /\
  (forall num, covered ex_env num nothing_stored (entries ex_clock c107_asks)) /\
  (let '(e', rs, h) := connection ex_env ex_clock (fun _ => alone) [firstn 30 c107_bytes; skipn 30 c107_bytes] ex_start in (concat (map write rs), h)) =
    (bs "+OK" ++ CRLF ++ bs ":2" ++ CRLF ++ bs "-" ++ bs "WRONGTYPE Operation against a key holding the wrong kind of value" ++ CRLF ++ bs ":1" ++ CRLF ++ bs "$-1" ++ CRLF ++ bs ":1" ++ CRLF, HClean).
Proof.
  split; [repeat constructor; vm_compute; reflexivity|].
  split; [repeat (constructor; cbn; try done)|].
  split; [intros t' k _; done|].
  split; [repeat (constructor; try done)|].
  split; [|vm_compute; done].
  intros num. apply C107_everyday; [by intros k h v d|]. repeat (constructor; cbn; try done; eauto).
Qed.
Example C107_clients_case :
  Forall (Forall (fun q => single q /\ everyday q)) [[QIncr cl_a]; [QIncr cl_a]] /\ shows 0 db_empty nothing_stored /\ neat nothing_stored /\
  StronglySorted N.le (map snd cl_incr_evs).
Proof.
  assert (S : single (QIncr cl_a)) by (by apply (C75_single_requests (QIncr cl_a))).
  split; [repeat constructor; exact S|]. split; [intros t' k _; done|]. split; [by intros k h v d|]. repeat (constructor; try done).
Qed.
