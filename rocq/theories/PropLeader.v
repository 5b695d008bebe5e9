(** C112: a whole server, background tasks included. *)
From Verif Require Import LeaderFacts PropFlush FlushFacts ClientsFacts PropWhole PropParts PropTalk PropClients WireFacts.

Lemma leader_steps_embed en evs : forall t x x', leader_steps en evs x = Some x' -> leader_fine t x -> StronglySorted N.le (t :: map fst evs) ->
  length (cs_conns (ld_cl x')) = length (cs_conns (ld_cl x)) /\
  exists vis evs' p' pf', StronglySorted N.le (map snd evs') /\ Forall (fun u => In u (map fst evs)) (map snd evs') /\
    all_but (length (cs_conns (ld_cl x))) evs' = conn_turns evs /\
    forall p pf rest out, exists outs,
      csteps en evs' (embed p pf (map QGet vis ++ rest) out x) = Some (embed (p ++ p') (pf ++ pf') rest (out ++ outs) x').
Proof.
  induction evs as [|[t1 u] evs IH]; intros t x x' H F S.
  - injection H as <-. split; [done|]. exists [], [], [], []. split; [constructor|]. split; [constructor|]. split; [done|].
    intros p pf rest out. exists []. cbn [csteps map app]. by rewrite !app_nil_r.
  - cbn [leader_steps] in H. destruct (leader_step en (t1, u) x) as [y|] eqn:E; [|done]. cbn [map fst] in S.
    inversion S as [|? ? S1 S2]; subst. inversion S2 as [|? ? L1 L2]; subst.
    destruct (leader_step_embed en t1 u x y E (leader_fine_later _ _ _ L1 F)) as (FY & LY & vis1 & evs1 & p1 & pf1 & T1 & B1 & A1 & C1).
    destruct (IH t1 y x' H FY S1) as (L & vis2 & evs2 & p2 & pf2 & T2 & T2' & A2 & C2).
    split; [by rewrite L, LY|]. exists (vis1 ++ vis2), (evs1 ++ evs2), (p1 ++ p2), (pf1 ++ pf2).
    assert (M1 : forall v, In v (map snd evs1) -> v = t1).
    { intros v V. apply in_map_iff in V as ([i w] & <- & V). rewrite List.Forall_forall in T1. exact (T1 _ V). }
    split; [|split; [|split]].
    + rewrite map_app. inversion S1 as [|? ? S3 S4]; subst. clear -T2 T2' M1 S4.
      induction (map snd evs1) as [|v l IHl]; [done|]. cbn [app]. constructor; [apply IHl; intros w W; apply M1; by right|].
      apply List.Forall_app. rewrite (M1 v) by (by left). split; apply List.Forall_forall.
      * intros w W. rewrite (M1 w) by (by right). lia.
      * intros w W. rewrite List.Forall_forall in T2', S4. by apply S4, T2'.
    + rewrite map_app. apply List.Forall_app. split; apply List.Forall_forall.
      * intros v V. left. symmetry. by apply M1.
      * intros v V. right. rewrite List.Forall_forall in T2'. by apply T2'.
    + unfold all_but in *. rewrite List.filter_app, A1. rewrite LY in A2. rewrite A2. cbn [conn_turns flat_map fst snd app]. by rewrite app_nil_r.
    + intros p pf rest out. destruct (C1 p pf (map QGet vis2 ++ rest) out) as [o1 O1]. destruct (C2 (p ++ p1) (pf ++ pf1) rest (out ++ o1)) as [o2 O2].
      exists (o1 ++ o2). by rewrite csteps_app, map_app, <- app_assoc, O1, O2, <- !app_assoc.
Qed.

(** * The background tasks of a server are one more client that sends GETs, for every execution: the database is the same (access statistics
    included), the other clients are at the same point and have been given the same replies. *)
Theorem C112_one_more_client en b ins evs x :
  leader_steps en evs (leader_start b ins) = Some x -> StronglySorted N.le (map fst evs) ->
  exists keys evs' y replies, csteps en evs' (cs_start b (ins ++ [map QGet keys])) = Some y /\
    StronglySorted N.le (map snd evs') /\ all_but (length ins) evs' = conn_turns evs /\
    cs_db y = cs_db (ld_cl x) /\ cs_conns y = cs_conns (ld_cl x) ++ [Client [] KIdle replies].
Proof.
  intros H S. destruct (leader_steps_embed en evs 0%N _ _ H (leader_fine_start b ins)) as (L & vis & evs' & p' & pf' & T & _ & A & C).
  { constructor; [done|]. apply List.Forall_forall. lia. }
  destruct (C [] [] [] []) as [outs E]. cbn [leader_start ld_cl cs_start cs_conns] in A. rewrite map_length in A. rewrite app_nil_r in E.
  exists vis, evs', (embed ([] ++ p') ([] ++ pf') [] ([] ++ outs) x), ([] ++ outs). split; [|done].
  rewrite <- E. unfold embed, cs_start. cbn [leader_start ld_cl cs_start cs_conns cs_db cs_exp cs_fwd app]. by rewrite map_app.
Qed.
Print Assumptions C112_one_more_client.

(** ** GETs leave no trace in the store *)
Lemma agree_refl t m : agree t m m. Proof. done. Qed.
Lemma agree_later t t' m n : (t <= t')%N -> agree t m n -> agree t' m n.
Proof. intros L A u k U. apply A. lia. Qed.
Lemma later_later t u m k : (t <= u)%N -> later u (later t m) k = later u m k.
Proof.
  intros L. unfold later. destruct (m k) as [[x d]|]; [|done]. unfold while_alive. destruct (decide (lives t d)) as [A|A]; [done|].
  rewrite decide_False; [done|]. unfold lives in *. lia.
Qed.
Lemma fates_agree en num t0 t1 q m m1 P n : fates en num t0 t1 q m m1 P -> (forall k, m k = n k) ->
  exists n1, fates en num t0 t1 q n n1 P /\ forall k, m1 k = n1 k.
Proof.
  intros F E. destruct F as [q k m y P F|q m m' P M|s m|m|sub m H|sub m H|m|m].
  - exists (update k y n). split; [constructor; by rewrite <- E|]. intros j. unfold update. by destruct (decide _).
  - destruct M as [q k m y P M|q m f H|sub ps m H|sub ps m H|sync m].
    + exists (update k y n). split; [apply f_means; constructor; by rewrite <- E|]. intros j. unfold update. by destruct (decide _).
    + exists n. split; [by apply f_means; constructor|done].
    + exists n. split; [by apply f_means; constructor|done].
    + exists n. split; [by apply f_means; constructor|done].
    + exists nothing_stored. split; [by apply f_means; constructor|done].
  - exists n. split; [constructor|done].
  - exists n. split; [constructor|done].
  - exists n. split; [by constructor|done].
  - exists n. split; [by constructor|done].
  - exists n. split; [constructor|done].
  - exists n. split; [constructor|done].
Qed.
Lemma get_keeps en num t0 t1 k m m1 P : fates en num t0 t1 (QGet k) m m1 P -> forall j, m1 j = m j.
Proof.
  assert (MK : forall i y y' Q, means_key en num t0 t1 (QGet k) i y y' Q -> y' = y).
  { intros i y y' Q M. inversion M; subst; try done; match goal with H : zremoval _ _ _ |- _ => by inversion H | H : lremoval _ _ _ |- _ => by inversion H end. }
  intros F j. inversion F as [q i m0 y P0 FK|q m0 m' P0 M| | | | | |]; subst.
  - unfold update. destruct (decide (j = i)) as [->|]; [|done]. inversion FK; subst; try done; [by eapply MK|].
    match goal with H : two_asks _ _ _ _ _ |- _ => by inversion H end.
  - inversion M; subst; try done. unfold update. destruct (decide (j = k0)) as [->|]; [|done]. by eapply MK.
Qed.
Lemma agree_wiped t m n s : agree t m n -> agree t (without_slot s m) (without_slot s n).
Proof. intros A u k U. unfold later, without_slot. destruct (decide (get_slot k = s)); [done|]. exact (A u k U). Qed.
Lemma fated_cons i c q cl l f fs : fated i (Served c q cl :: l) (f :: fs) = (if Nat.eqb c i then [f] else []) ++ fated i l fs.
Proof. unfold fated. cbn [map combine List.filter fst sv_conn]. by destruct (Nat.eqb c i). Qed.
Lemma play_others en num i0 m l fs m' : play en num m l fs m' -> forall t n, forward t (dids l) -> agree t m n ->
  (forall s, In (Did s) l -> sv_conn s = i0 -> exists k, sv_req s = QGet k) -> (forall s, ~ In (Wiped i0 s) l) ->
  exists fs' n', play en num n (others_did i0 l) fs' n' /\ agree (List.last (map (fun s => sv_clock s 1%nat) (dids l)) t) m' n' /\
    forward t (dids (others_did i0 l)) /\ forall i, i <> i0 -> fated i (dids (others_did i0 l)) fs' = fated i (dids l) fs.
Proof.
  induction 1 as [m|s l m m1 P r rs m2 NF F R _ IH|s sync l m rs m2 Q _ IH|i s l m rs m2 _ IH]; intros t n FO A G W.
  - exists [], n. split; [constructor|]. done.
  - cbn [dids map] in *. inversion FO as [|? ? F1 F2]; subst. inversion F2 as [|? ? L1 L2]; subst. rewrite last_shift.
    assert (G' : forall s', In (Did s') l -> sv_conn s' = i0 -> exists k, sv_req s' = QGet k) by (intros; apply G; [by right|done]).
    assert (W' : forall s', ~ In (Wiped i0 s') l) by (intros s' I; apply (W s'); by right).
    unfold others_did. cbn [List.filter doer]. fold (others_did i0 l).
    destruct (Nat.eqb_spec (sv_conn s) i0) as [E|E]; cbn [negb].
    + destruct (G s (or_introl eq_refl) E) as [k K]. rewrite K in F. pose proof (get_keeps _ _ _ _ _ _ _ _ F) as KP.
      destruct (IH (sv_clock s 1%nat) n) as (fs' & n' & I1 & I2 & I3 & I4); [done| |done|done|].
      { intros u j U. transitivity (later u (later (sv_clock s 1%nat) m) j); [unfold later at 1 2; by rewrite KP|]. rewrite later_later by done. apply A. lia. }
      exists fs', n'. split; [done|]. split; [done|]. split.
      { inversion I3 as [|? ? J1 J2]; subst. constructor; [done|]. eapply List.Forall_impl; [|exact J2]. cbn. intros; lia. }
      intros i NI. rewrite I4 by done. destruct s as [c q cl]. rewrite fated_cons. cbn [sv_conn] in E. subst c. by rewrite (proj2 (Nat.eqb_neq i0 i)) by done.
    + destruct (fates_agree _ _ _ _ _ _ _ _ (later (sv_clock s 1%nat) n) F) as (n1 & F' & KP); [intros k; apply A; lia|].
      destruct (IH (sv_clock s 1%nat) n1) as (fs' & n' & I1 & I2 & I3 & I4); [done| |done|done|].
      { intros u j U. unfold later. by rewrite KP. }
      exists (r :: fs'), n'. split; [by econstructor|]. split; [done|]. split.
      { cbn [dids map]. inversion I3 as [|? ? J1 J2]; subst. constructor; [done|]. constructor; [done|]. eapply List.Forall_impl; [|exact J2]. cbn. intros; lia. }
      intros i NI. destruct s as [c q cl]. cbn [dids]. by rewrite !fated_cons, I4.
  - cbn [dids map] in *. inversion FO as [|? ? F1 F2]; subst. inversion F2 as [|? ? L1 L2]; subst. rewrite last_shift.
    assert (G' : forall s', In (Did s') l -> sv_conn s' = i0 -> exists k, sv_req s' = QGet k) by (intros; apply G; [by right|done]).
    assert (W' : forall s', ~ In (Wiped i0 s') l) by (intros s' I; apply (W s'); by right).
    unfold others_did. cbn [List.filter doer]. fold (others_did i0 l).
    destruct (Nat.eqb_spec (sv_conn s) i0) as [E|E]; cbn [negb]; [destruct (G s (or_introl eq_refl) E) as [k K]; by rewrite K in Q|].
    destruct (IH (sv_clock s 1%nat) n) as (fs' & n' & I1 & I2 & I3 & I4); [done|by eapply agree_later|done|done|].
    exists (inl frame_ok :: fs'), n'. split; [by eapply play_flushed|]. split; [done|]. split.
    { cbn [dids map]. inversion I3 as [|? ? J1 J2]; subst. constructor; [done|]. constructor; [done|]. eapply List.Forall_impl; [|exact J2]. cbn. intros; lia. }
    intros i NI. destruct s as [c q cl]. cbn [dids]. by rewrite !fated_cons, I4.
  - cbn [dids] in *.
    assert (G' : forall s', In (Did s') l -> sv_conn s' = i0 -> exists k, sv_req s' = QGet k) by (intros; apply G; [by right|done]).
    assert (W' : forall s', ~ In (Wiped i0 s') l) by (intros s' I; apply (W s'); by right).
    unfold others_did. cbn [List.filter doer]. fold (others_did i0 l).
    destruct (Nat.eqb_spec i i0) as [->|E]; cbn [negb]; [destruct (W s); by left|].
    destruct (IH t (without_slot s n)) as (fs' & n' & I1 & I2 & I3 & I4); [done|by apply agree_wiped|done|done|].
    exists fs', n'. split; [by apply play_wiped|]. done.
Qed.

Lemma acts_others i i0 l : i <> i0 -> acts i (others_did i0 l) = acts i l.
Proof.
  intros N. unfold others_did. induction l as [|d l IH]; [done|]. cbn [List.filter]. destruct (Nat.eqb_spec (doer d) i0) as [E|E]; cbn [negb].
  - rewrite IH. destruct d as [s|j s]; cbn [doer] in E; cbn [acts flat_map]; subst; by rewrite (proj2 (Nat.eqb_neq _ i)) by done.
  - unfold acts in *. cbn [flat_map]. by rewrite IH.
Qed.
(** * Whatever the background tasks do, and whenever: the clients are served as by a store of keys without any background. *)
Theorem C112_clients : exists num, reads_counters num /\ forall en b m ins evs x,
  horder_ok (e_ho en) -> shows 0 b m -> orderly m -> Forall (Forall separable) ins ->
  leader_steps en evs (leader_start b ins) = Some x -> StronglySorted N.le (map fst evs) ->
  exists l fs m' t, play en num m l fs m' /\ shows t (cs_db (ld_cl x)) m' /\ forward 0 (dids l) /\ Forall (fun d => doer d < length ins) l /\
    forall i k, cs_conns (ld_cl x) !! i = Some k -> exists qs rest ps,
      nth i ins [] = qs ++ rest /\ merged qs ps (k_out k) /\ (exists last, fated i (dids l) fs = map inl ps ++ last) /\
      (exists more, flat_map script (flat_map parts (nth i ins [])) = acts i l ++ more) /\
      (k_pc k = KIdle -> rest = k_in k /\ fated i (dids l) fs = map inl ps /\ acts i l = flat_map script (flat_map parts qs)).
Proof.
  destruct C111_clients as (num & RC & C). exists num. split; [done|]. intros en b m ins evs x HO S OR A H T.
  destruct (C112_one_more_client en b ins evs x H T) as (keys & evs' & y & replies & H' & T' & _ & DB & CO).
  destruct (C en b m (ins ++ [map QGet keys]) evs' y HO S OR) as (l & fs & m' & t & P & _ & SH & FO & DO & EX); [|done|done|].
  { apply List.Forall_app. split; [done|]. constructor; [|constructor]. apply List.Forall_map, List.Forall_forall. intros k _. by split. }
  assert (LC : length (cs_conns (ld_cl x)) = length ins).
  { pose proof (csteps_length en evs' _ y H') as L. cbn [cs_start cs_conns] in L. rewrite CO, map_length, !app_length in L. cbn in L. lia. }
  assert (BG : exists more, map (fun k => inl (QGet k)) keys = acts (length ins) l ++ more).
  { destruct (EX (length ins) (Client [] KIdle replies)) as (qs & rest & ps & _ & _ & _ & (more & M) & _).
    - rewrite CO, lookup_app_r by lia. by rewrite LC, Nat.sub_diag.
    - exists more. rewrite <- M. rewrite app_nth2 by lia. rewrite Nat.sub_diag. cbn [nth]. clear. induction keys as [|k keys IH]; [done|]. cbn [map flat_map app parts script] in *. by rewrite IH. }
  destruct BG as [more BG].
  assert (BA : forall a, In a (acts (length ins) l) -> exists k, a = inl (QGet k)).
  { intros a I. assert (I' : In a (map (fun k => inl (QGet k)) keys)) by (rewrite BG; apply in_or_app; by left). apply in_map_iff in I' as (k & <- & _). by exists k. }
  destruct (play_others en num (length ins) m l fs m' P 0%N m FO (agree_refl _ _)) as (fs' & n' & P1 & P2 & P3 & P4).
  { intros s I E. destruct (BA (inl (sv_req s))) as [k K]; [|injection K as K; by exists k].
    unfold acts. apply in_flat_map. exists (Did s). split; [done|]. rewrite E, Nat.eqb_refl. by left. }
  { intros s I. destruct (BA (inr s)) as [k K]; [|done]. unfold acts. apply in_flat_map. exists (Wiped (length ins) s). split; [done|]. rewrite Nat.eqb_refl. by left. }
  exists (others_did (length ins) l), fs', n', (N.max t (List.last (map (fun s => sv_clock s 1%nat) (dids l)) 0%N)).
  split; [done|]. split; [|split; [done|split]].
  - intros u k U. rewrite <- DB, SH by lia. apply P2. lia.
  - apply List.Forall_forall. intros d D. unfold others_did in D. apply filter_In in D as [D1 D2]. apply negb_true_iff, Nat.eqb_neq in D2.
    rewrite List.Forall_forall in DO. specialize (DO d D1). rewrite app_length in DO. cbn in DO. lia.
  - intros i k K. assert (LI : i < length ins) by (rewrite <- LC; by apply lookup_lt_Some in K).
    destruct (EX i k) as (qs & rest & ps & E1 & E2 & E3 & E4 & E5); [rewrite CO; by apply lookup_app_l_Some|].
    rewrite app_nth1 in E1, E4 by done. exists qs, rest, ps. rewrite P4, acts_others by lia. done.
Qed.
Print Assumptions C112_clients.

(** FLUSHALL guarantees with background tasks what it guarantees without (C111). *)
Theorem C112_flushall : exists num, reads_counters num /\ forall en b m ins evs x i kc qs sync,
  horder_ok (e_ho en) -> shows 0 b m -> orderly m -> Forall (Forall separable) ins ->
  leader_steps en evs (leader_start b ins) = Some x -> StronglySorted N.le (map fst evs) ->
  cs_conns (ld_cl x) !! i = Some kc -> k_pc kc = KIdle -> nth i ins [] = qs ++ k_in kc -> In (QFlushall sync) qs ->
  exists l fs m' t, play en num m l fs m' /\ shows t (cs_db (ld_cl x)) m' /\
    forall k, m' k <> None -> exists la lb s, l = la ++ Wiped i (get_slot k) :: lb /\ In (Did s) lb /\ creates (sv_req s) = Some k.
Proof.
  destruct C112_clients as (num & RC & C). exists num. split; [done|]. intros en b m ins evs x i kc qs sync HO S OR A H T K KI E IN.
  destruct (C en b m ins evs x HO S OR A H T) as (l & fs & m' & t & P & SH & _ & _ & CO). exists l, fs, m', t. split; [done|]. split; [done|].
  intros k NN. destruct (CO i kc K) as (qs' & rest & ps & E' & _ & _ & _ & I). destruct (I KI) as (-> & _ & AC).
  rewrite E in E'. apply app_inv_tail in E' as <-. by eapply flushed_before.
Qed.
Print Assumptions C112_flushall.

(** ** Concrete cases *)
(** Client 0 stores two keys with deadlines and stores one of them again without (SET then tells the queue nothing); the purge task takes
    both out of its queue when their time has come. Client 1 asks afterwards. *)
Definition c112_ins : list (list request) :=
  [[QPsetex cl_a 500 (SBytes (bs "v")); QPsetex cl_b 500 (SBytes (bs "w")); QSet cl_a (SBytes (bs "v")) (SetOpts ExNone NxXx_None false)];
   [QObject (bs "idletime") [cl_a]; QGet cl_a; QGet cl_b]].
Definition c112_conns : list (N * turn) := repeat (1000%N, LConn 0) 20.
Definition c112_back : list (N * turn) := [(1000%N, LRecv); (1000%N, LNote); (1000%N, LRecv)] ++ repeat (90000%N, LPurge) 5.
Definition c112_ask : list (N * turn) := repeat (90000%N, LConn 1) 15.
Definition c112_shows (evs : list (N * turn)) : option (list (list request * kpc * list frame) * list entry) :=
  option_map (fun x => (map (fun k => (k_in k, k_pc k, k_out k)) (cs_conns (ld_cl x)), ld_queue x)) (leader_steps ex_env evs (leader_start db_empty c112_ins)).
Definition c112_rep (evs : list (N * turn)) : option (list (list frame)) := option_map (fun s => map snd (fst s)) (c112_shows evs).
Lemma c112_rep_some evs r : c112_rep evs = Some r ->
  exists x, leader_steps ex_env evs (leader_start db_empty c112_ins) = Some x /\ map k_out (cs_conns (ld_cl x)) = r.
Proof.
  unfold c112_rep, c112_shows. destruct (leader_steps _ _ _) as [x|]; [|done]. cbn. intros [= <-]. exists x. by rewrite map_map.
Qed.
Lemma c112_sorted : StronglySorted N.le (map fst (c112_conns ++ c112_back ++ c112_ask)) /\ StronglySorted N.le (map fst (c112_conns ++ c112_ask)).
Proof. split; vm_compute; repeat (constructor; [|repeat (constructor; [discriminate|]); constructor]); constructor. Qed.
(** The key whose deadline was taken away is visited by the purge task and stays; the other one is gone for those who ask. *)
Example C112_one_more_client_case :
  StronglySorted N.le (map fst (c112_conns ++ c112_back ++ c112_ask)) /\
  option_map (fun x => ld_queue x) (leader_steps ex_env (c112_conns ++ firstn 3 c112_back) (leader_start db_empty c112_ins)) =
    Some [Entry 1500 (get_slot cl_b) cl_b; Entry 1500 (get_slot cl_a) cl_a] /\
  c112_shows (c112_conns ++ c112_back ++ c112_ask) =
    Some ([([], KIdle, [frame_ok; frame_ok; frame_ok]); ([], KIdle, [FInteger 0; FBulk (bs "v"); FNull])], []) /\
  conn_turns (c112_conns ++ c112_back ++ c112_ask) = repeat (0%nat, 1000%N) 20 ++ repeat (1%nat, 90000%N) 15.
Proof. split; [apply c112_sorted|]. split; [by vm_compute|]. split; by vm_compute. Qed.
Definition c112_plain : list (list request) := [nth 0 c112_ins []; [QGet cl_a; QGet cl_b]].
Example C112_clients_case : Forall (Forall separable) c112_plain /\
  option_map (fun x => map k_out (cs_conns (ld_cl x))) (leader_steps ex_env (c112_conns ++ c112_back ++ repeat (90000%N, LConn 1) 10) (leader_start db_empty c112_plain)) =
    Some [[frame_ok; frame_ok; frame_ok]; [FBulk (bs "v"); FNull]].
Proof. split; [by repeat constructor|]. by vm_compute. Qed.
(** FLUSHALL, then the scan it has asked for, which visits the entry of a key that is no longer there. *)
Example C112_flushall_case :
  option_map (fun x => (map k_out (cs_conns (ld_cl x)), ld_scans x, ld_scan x, map en_key (ld_queue x)))
    (leader_steps ex_env (repeat (1000%N, LConn 0) 7 ++ [(1000%N, LRecv)] ++ repeat (1001%N, LConn 0) (3 + N.to_nat 16384) ++ [(1002%N, LScan)] ++ repeat (2000%N, LVisit) 2)
      (leader_start db_empty [[QPsetex cl_a 500 (SBytes (bs "v")); QFlushall true]])) =
    Some ([[frame_ok; frame_ok]], 0%nat, None, []).
Proof. by vm_compute. Qed.

(** That the background tasks are one more client can be noticed: their visits count as visits. With the same steps of the connections
    at the same instants, OBJECT IDLETIME is answered 90 seconds without the purge task and 0 with it: an entry that the queue kept of a deadline
    long gone has had its key touched. *)
Theorem C112_statistics_refuted : ~ (forall en b ins evs evs' x x',
  leader_steps en evs (leader_start b ins) = Some x -> leader_steps en evs' (leader_start b ins) = Some x' ->
  StronglySorted N.le (map fst evs) -> StronglySorted N.le (map fst evs') -> conn_turns evs = conn_turns evs' ->
  map k_out (cs_conns (ld_cl x)) = map k_out (cs_conns (ld_cl x'))).
Proof.
  intros H.
  assert (E1 : c112_rep (c112_conns ++ c112_ask) = Some [[frame_ok; frame_ok; frame_ok]; [FInteger 90; FBulk (bs "v"); FNull]]) by by vm_compute.
  assert (E2 : c112_rep (c112_conns ++ c112_back ++ c112_ask) = Some [[frame_ok; frame_ok; frame_ok]; [FInteger 0; FBulk (bs "v"); FNull]]) by by vm_compute.
  apply c112_rep_some in E1 as (x & X & E1). apply c112_rep_some in E2 as (x' & X' & E2).
  specialize (H _ _ _ _ _ _ _ X X' (proj2 c112_sorted) (proj1 c112_sorted)). rewrite E1, E2 in H. cut (FInteger 90 = FInteger 0); [discriminate|].
  assert (CT : conn_turns (c112_conns ++ c112_ask) = conn_turns (c112_conns ++ c112_back ++ c112_ask)) by by vm_compute.
  specialize (H CT). congruence.
Qed.
Print Assumptions C112_statistics_refuted.
