(** C75, C76: several connections at the same time. *)
From Verif Require Export ClientsFacts PropServer Replica.

(** * C75: concurrent requests have the effect of executing them one at a time *)
(** Every request is [single] except DEL and EXISTS with several keys, and FLUSHALL. *)
Theorem C75_single_requests q :
  match q with
  | QDel ks | QExists ks => (length ks <= 1)%nat
  | QFlushall _ => False
  | _ => True
  end <-> single q.
Proof.
  unfold single. split.
  - intros H t. destruct q; cbn [plan_of]; cbn [length]; try done; try lia; try (rewrite map_length; done);
      repeat (match goal with
              | |- context [match abind ?a _ with _ => _ end] => destruct a; cbn [abind]
              | |- context [if ?a then _ else _] => destruct a
              | |- context [match ?a with _ => _ end] => is_var a; destruct a
              | |- context [match ro_order ?a with _ => _ end] => destruct (ro_order a)
              end; cbn [length]; try done; try lia).
  - intros H. specialize (H 0%N). destruct q; try done; cbn [plan_of] in H; by rewrite map_length in H.
Qed.

(** For every execution of any number of connections with such requests there is one order of the executed
    requests ([L n] after [n] steps; it only ever grows at its end, so a request that was answered before
    another one was read comes first) such that executing them one at a time, each alone, gives the same
    database and the same replies, with the clock readings of the execution. *)
Theorem C75_one_at_a_time_partial en b ins evs x :
  Forall (Forall single) ins -> csteps en evs (cs_start b ins) = Some x ->
  exists L : nat -> list serial_entry,
    (forall n, n <= length evs -> exists y,
       csteps en (firstn n evs) (cs_start b ins) = Some y /\ explains en b ins (L n) y /\
       Forall (fun s => forall j, In (sv_clock s j) (map snd (firstn n evs))) (L n) /\
       (StronglySorted N.le (map snd (firstn n evs)) -> StronglySorted N.le (map (fun s => sv_clock s 1) (L n)))) /\
    forall n m, n <= m <= length evs -> begins (L n) (L m).
Proof.
  intros SI H. assert (G : exists L : nat -> list serial_entry,
    (forall n, n <= length evs -> exists y, csteps en (firstn n evs) (cs_start b ins) = Some y /\ clients_ok en b ins (map snd (firstn n evs)) (L n) y) /\
    forall n m, n <= m <= length evs -> begins (L n) (L m)).
  2: { destruct G as (L & A & B). exists L. split; [|done]. intros n N. destruct (A n N) as (y & Y & OK). exists y. split; [done|].
       split; [by eapply ok_explains|]. by destruct OK as (_ & [T1 T2] & _). }
  revert x H. induction evs as [|[i t] evs IH] using rev_ind; intros x H.
  - exists (fun _ => []). split.
    + intros n _. exists (cs_start b ins). rewrite firstn_nil. split; [done|]. apply clients_start.
    + intros. exists []. done.
  - rewrite csteps_app in H. destruct (csteps en evs (cs_start b ins)) as [y|] eqn:Y; [|done].
    destruct (IH y eq_refl) as (L & A & B). destruct (A (length evs)) as (y' & Y' & OK); [lia|]. rewrite firstn_all in Y', OK.
    rewrite Y in Y'. injection Y' as <-. cbn [csteps] in H. destruct (cstep en (i, t) y) as [z|] eqn:Z; [|done]. injection H as ->.
    destruct (clients_step en b ins _ _ _ _ _ _ SI OK Z) as (l & BL & OKL).
    exists (fun n => if decide (n <= length evs) then L n else l). rewrite app_length. cbn [length]. split.
    + intros n N. destruct (decide (n <= length evs)) as [C|C].
      * rewrite firstn_app. replace (n - length evs) with 0 by lia. cbn [firstn]. rewrite app_nil_r. by apply A.
      * rewrite firstn_all2 by (rewrite app_length; cbn; lia). exists x. rewrite csteps_app, Y. cbn [csteps]. rewrite Z. split; [done|].
        by rewrite map_app.
    + intros n m N. destruct (decide (n <= length evs)) as [C|C], (decide (m <= length evs)) as [C'|C']; [apply B; lia| |lia|].
      * eapply begins_trans; [apply (B n (length evs)); lia|exact BL].
      * exists []. by rewrite app_nil_r.
Qed.

Definition cl_set (k : bytes) : request := QSet k (SBytes (bs "v")) (SetOpts ExNone NxXx_None false).
Definition cl_a : bytes := bs "a".
Definition cl_b : bytes := bs "b".
(** Two connections increment the same counter; the second overtakes the first on the way to its reply. *)
Definition cl_incr_evs : list (nat * N) := map (fun p => (fst p, N.of_nat (snd p))) [(0, 1); (1, 1); (1, 2); (0, 3); (0, 4); (1, 4); (1, 5); (1, 6); (1, 7); (0, 8); (0, 8); (0, 9)].
Example C75_case : Forall (Forall single) [[QIncr cl_a]; [QIncr cl_a]] /\
  option_map (fun x => map k_out (cs_conns x)) (csteps ex_env cl_incr_evs (cs_start db_empty [[QIncr cl_a]; [QIncr cl_a]])) =
    Some [[FInteger 2]; [FInteger 1]].
Proof.
  split; [|vm_compute; done]. assert (S : single (QIncr cl_a)) by (by apply (C75_single_requests (QIncr cl_a))).
  constructor; [by constructor|]. constructor; [by constructor|done].
Qed.
Print Assumptions C75_single_requests.
Print Assumptions C75_one_at_a_time_partial.

(** ** Requests over several slots are not atomic *)
Lemma three_orders l q q1 q2 :
  Forall (fun s => sv_conn s < 2) l -> asked 0 l = [q] -> asked 1 l = [q1; q2] ->
  exists c c1 c2, l = [Served 0 q c; Served 1 q1 c1; Served 1 q2 c2] \/ l = [Served 1 q1 c1; Served 0 q c; Served 1 q2 c2] \/
    l = [Served 1 q1 c1; Served 1 q2 c2; Served 0 q c].
Proof.
  intros F A B. unfold asked in *.
  destruct l as [|[[|[|n]] r c] l]; [done|inversion F; subst|inversion F; subst|inversion F; subst; cbn in *; lia]; cbn in A, B.
  - injection A as -> A. destruct l as [|[[|[|n]] r1 c1] l]; [done|done| |]; inversion H2; subst; cbn in *; [|lia].
    injection B as -> B. destruct l as [|[[|[|n]] r2 c2] l]; [done|done| |]; inversion H4; subst; cbn in *; [|lia].
    injection B as -> B. destruct l as [|[[|[|n]] r3 c3] l]; [|done|done|inversion H6; subst; cbn in *; lia]. exists c, c1, c2. by left.
  - injection B as -> B. destruct l as [|[[|[|n]] r1 c1] l]; [done| | |]; inversion H2; subst; cbn in *; [| |lia].
    + injection A as -> A. destruct l as [|[[|[|n]] r2 c2] l]; [done|done| |]; inversion H4; subst; cbn in *; [|lia].
      injection B as -> B. destruct l as [|[[|[|n]] r3 c3] l]; [|done|done|inversion H6; subst; cbn in *; lia]. exists c1, c, c2. right. by left.
    + injection B as -> B. destruct l as [|[[|[|n]] r2 c2] l]; [done| |done|]; inversion H4; subst; cbn in *; [|lia].
      injection A as -> A. destruct l as [|[[|[|n]] r3 c3] l]; [|done|done|inversion H6; subst; cbn in *; lia]. exists c2, c, c1. right. by right.
Qed.

Definition cl_with_b : db := ef_db (fst (serve_request ex_env (fun _ => 1%N) alone (cl_set cl_b) ex_start)).
Definition cl_tick (i n : nat) : list (nat * N) := repeat (i, 5%N) n.
Definition cl_idle (x : clients) : Prop := Forall (fun k => k_in k = [] /\ k_pc k = KIdle) (cs_conns x).

(** EXISTS a b looks at [a]; the other connection creates [a] and then deletes [b]; EXISTS looks at [b]: the
    reply is 0, although at every moment at least one of the two keys was there. *)
Theorem C75_exists_torn_refuted : exists en b ins evs x,
  csteps en evs (cs_start b ins) = Some x /\ ins = [[QExists [cl_a; cl_b]]; [cl_set cl_a; QDel [cl_b]]] /\
  Forall (fun k => k_in k = [] /\ k_pc k = KIdle) (cs_conns x) /\ forall l, ~ explains en b ins l x.
Proof.
  exists ex_env, cl_with_b, [[QExists [cl_a; cl_b]]; [cl_set cl_a; QDel [cl_b]]],
    (cl_tick 0 3 ++ cl_tick 1 6 ++ cl_tick 1 6 ++ cl_tick 0 4).
  set (r := csteps _ _ _).
  assert (X : option_map (fun x => map (fun k => (k_in k, k_pc k, k_out k)) (cs_conns x)) r =
    Some [([], KIdle, [FInteger 0]); ([], KIdle, [frame_ok; FInteger 1])]) by (vm_compute; reflexivity).
  destruct r as [x|]; [|done]. cbn [option_map] in X. injection X as X. exists x. split; [done|]. split; [done|].
  destruct (cs_conns x) as [|[i0 p0 o0] [|[i1 p1 o1] [|? ?]]] eqn:C; try done. cbn in X. injection X as -> -> -> -> -> ->.
  split; [by repeat constructor|]. intros l E. unfold explains in E. destruct (serial _ l _) as [e rs] eqn:S. rewrite C in E.
  destruct E as (_ & F & E). destruct (E 0 _ eq_refl) as (_ & _ & E0). destruct (E 1 _ eq_refl) as (_ & _ & E1).
  destruct (E0 eq_refl) as [A0 B0]. destruct (E1 eq_refl) as [_ B1]. cbn [k_in k_out nth] in *. rewrite app_nil_r in B0, B1.
  destruct (three_orders l _ _ _ F (eq_sym B0) (eq_sym B1)) as (c & c1 & c2 & [E'|[E'|E']]);
    apply (f_equal snd) in S; cbn [snd] in S; subst l rs; vm_compute in A0; discriminate.
Qed.

(** DEL a b has deleted [a] but not yet [b] when the other connection looks at both. *)
Theorem C75_del_torn_refuted : exists en b ins evs x,
  csteps en evs (cs_start b ins) = Some x /\ ins = [[QDel [cl_b; cl_a]]; [QExists [cl_b]; QExists [cl_a]]] /\
  Forall (fun k => k_in k = [] /\ k_pc k = KIdle) (cs_conns x) /\ forall l, ~ explains en b ins l x.
Proof.
  exists ex_env, (ef_db (fst (serve_request ex_env (fun _ => 1%N) alone (cl_set cl_a) (Effects cl_with_b [] [])))),
    [[QDel [cl_b; cl_a]]; [QExists [cl_b]; QExists [cl_a]]], (cl_tick 0 4 ++ cl_tick 1 5 ++ cl_tick 1 5 ++ cl_tick 0 5).
  set (r := csteps _ _ _).
  assert (X : option_map (fun x => map (fun k => (k_in k, k_pc k, k_out k)) (cs_conns x)) r =
    Some [([], KIdle, [FInteger 2]); ([], KIdle, [FInteger 0; FInteger 1])]) by (vm_compute; reflexivity).
  destruct r as [x|]; [|done]. cbn [option_map] in X. injection X as X. exists x. split; [done|]. split; [done|].
  destruct (cs_conns x) as [|[i0 p0 o0] [|[i1 p1 o1] [|? ?]]] eqn:C; try done. cbn in X. injection X as -> -> -> -> -> ->.
  split; [by repeat constructor|]. intros l E. unfold explains in E. destruct (serial _ l _) as [e rs] eqn:S. rewrite C in E.
  destruct E as (_ & F & E). destruct (E 0 _ eq_refl) as (_ & _ & E0). destruct (E 1 _ eq_refl) as (_ & _ & E1).
  destruct (E0 eq_refl) as [_ B0]. destruct (E1 eq_refl) as [A1 B1]. cbn [k_in k_out nth] in *. rewrite app_nil_r in B0, B1.
  destruct (three_orders l _ _ _ F (eq_sym B0) (eq_sym B1)) as (c & c1 & c2 & [E'|[E'|E']]);
    apply (f_equal snd) in S; cbn [snd] in S; subst l rs; vm_compute in A1; discriminate.
Qed.

(** FLUSHALL has emptied the slot of [b] but not yet that of [a] when the other connection sets first [b] and
    then [a]: in the end [b] is there and [a] is not. *)
Theorem C75_flushall_torn_refuted : exists en b ins evs x,
  csteps en evs (cs_start b ins) = Some x /\ ins = [[QFlushall false]; [cl_set cl_b; cl_set cl_a]] /\
  Forall (fun k => k_in k = [] /\ k_pc k = KIdle) (cs_conns x) /\
  db_view 5 (cs_db x) cl_b <> None /\ db_view 5 (cs_db x) cl_a = None /\ forall l, ~ explains en b ins l x.
Proof.
  exists ex_env, db_empty, [[QFlushall false]; [cl_set cl_b; cl_set cl_a]],
    (cl_tick 0 (N.to_nat 10000) ++ cl_tick 1 6 ++ cl_tick 1 6 ++ cl_tick 0 (N.to_nat 6387)).
  set (r := csteps _ _ _).
  assert (X : option_map (fun x => (map (fun k => (k_in k, k_pc k, k_out k)) (cs_conns x), db_view 5 (cs_db x) cl_b, db_view 5 (cs_db x) cl_a)) r =
    Some ([([], KIdle, [frame_ok]); ([], KIdle, [frame_ok; frame_ok])], Some (DBytes (bs "v"), 0%N), None)) by (vm_compute; reflexivity).
  destruct r as [x|]; [|done]. cbn [option_map] in X. injection X as X XB XA. exists x. split; [done|]. split; [done|].
  destruct (cs_conns x) as [|[i0 p0 o0] [|[i1 p1 o1] [|? ?]]] eqn:C; try done. cbn in X. injection X as -> -> -> -> -> ->.
  split; [by repeat constructor|]. split; [by rewrite XB|]. split; [done|].
  intros l E. unfold explains in E. destruct (serial _ l _) as [e rs] eqn:S. rewrite C in E.
  destruct E as (D & F & E). destruct (E 0 _ eq_refl) as (_ & _ & E0). destruct (E 1 _ eq_refl) as (_ & _ & E1).
  destruct (E0 eq_refl) as [_ B0]. destruct (E1 eq_refl) as [_ B1]. cbn [k_in k_out nth] in *. rewrite app_nil_r in B0, B1.
  rewrite <- D in XA, XB.
  destruct (three_orders l _ _ _ F (eq_sym B0) (eq_sym B1)) as (c & c1 & c2 & [E'|[E'|E']]);
    apply (f_equal fst) in S; cbn [fst] in S; subst l e.
  - vm_compute in XA. discriminate.
  - vm_compute in XA. discriminate.
  - vm_compute in XB. discriminate.
Qed.
Print Assumptions C75_exists_torn_refuted.
Print Assumptions C75_del_torn_refuted.
Print Assumptions C75_flushall_torn_refuted.

(** * C76: the forward channel carries the writes of a slot in the order of their sequence numbers *)
(** Nothing is lost or sent twice: whatever the interleaving, there is a history [h] of the commands in the
    order of their execution such that the messages in the channel and those that a connection is about to
    send are those of [h]; those of a slot are numbered without a gap as long as no command panics. *)
Theorem C76_nothing_lost_partial en b ins evs x :
  Forall (Forall (fun q => forall sync, q <> QFlushall sync)) ins ->
  csteps en evs (cs_start b ins) = Some x ->
  exists h, cs_db x = fst (db_run (e_ho en) h b) /\
    Permutation (cs_fwd x ++ concat (map unsent (cs_conns x))) (db_forwarded (e_ho en) h b) /\
    (Forall unhurt (cs_conns x) -> forall i, (write_id (b i) < 2 ^ 64)%N ->
       Permutation (map fm_id (List.filter (fun m => (fm_slot m =? i)%N) (cs_fwd x ++ concat (map unsent (cs_conns x)))))
         (ids_from (write_id (b i)) (length (writes_in i h)))).
Proof.
  intros F H. destruct (hist_steps en b evs [] _ x (hist_start (e_ho en) b ins F) H) as (h & D & P & _ & U & _).
  cbn [app] in *. exists h. split; [done|]. split; [by symmetry|]. intros V i B.
  destruct (forwarded_seq (e_ho en) h b i B (U V)) as [Q _].
  rewrite <- (filter_perm _ _ _ P), Q. clear. generalize (write_id (b i)) as n. induction (writes_in i h) as [|w l IH]; intros n; [done|].
  cbn [length ids_from zip_with map fm_id]. by apply Permutation_cons.
Qed.
(** With a single connection the channel is in order. *)
Theorem C76_one_connection_partial en b qs evs x i :
  Forall (fun q => forall sync, q <> QFlushall sync) qs -> csteps en evs (cs_start b [qs]) = Some x ->
  Forall unhurt (cs_conns x) -> (write_id (b i) < 2 ^ 64)%N ->
  exists n, map fm_id (List.filter (fun m => (fm_slot m =? i)%N) (cs_fwd x)) = ids_from (write_id (b i)) n.
Proof.
  intros F H V B. assert (F' : Forall (Forall no_flush) [qs]) by (by constructor).
  destruct (hist_steps en b evs [] _ x (hist_start (e_ho en) b [qs] F') H) as (h & D & P & E & U & _). cbn [app] in *.
  assert (L : length (cs_conns x) = 1) by (rewrite (csteps_length en evs _ x H); done).
  destruct (forwarded_seq (e_ho en) h b i B (U V)) as [Q _].
  rewrite (E L), List.filter_app in Q. set (A := List.filter _ (cs_fwd x)) in *. exists (length A).
  assert (Z : map fm_id (A ++ List.filter (fun m => (fm_slot m =? i)%N) (concat (map unsent (cs_conns x)))) = ids_from (write_id (b i)) (length (writes_in i h))).
  { rewrite Q. clear. generalize (write_id (b i)) as n. induction (writes_in i h) as [|w l IH]; intros n; [done|].
    cbn [length ids_from zip_with map fm_id]. by rewrite IH. }
  rewrite map_app in Z. clear -Z. revert Z. generalize (map fm_id (List.filter (fun m => (fm_slot m =? i)%N) (concat (map unsent (cs_conns x))))) as r.
  generalize (length (writes_in i h)) as n, (write_id (b i)) as a. rewrite <- (map_length fm_id A). generalize (map fm_id A) as l.
  induction l as [|y l IH]; intros n a r E; [done|]. destruct n as [|n]; [done|]. cbn [ids_from app length] in *. injection E as -> E.
  f_equal. by eapply IH.
Qed.
(** Two connections write the same key; the second one's message is sent first.  A follower with the
    leader's data refuses it and asks for a snapshot, though nothing was lost. *)
Theorem C76_reordered_refuted : exists en b ins evs x m1 m2 s,
  csteps en evs (cs_start b ins) = Some x /\ ins = [[QIncr cl_a]; [QIncr cl_a]] /\
  Forall (fun k => k_in k = [] /\ k_pc k = KIdle) (cs_conns x) /\
  cs_fwd x = [m2; m1] /\ fm_slot m1 = s /\ fm_slot m2 = s /\ (fm_id m1 < fm_id m2)%N /\
  forall now, process_forward s now (fm_id m2) (fm_cmd m2) (b s) = (b s, Some Gt, []).
Proof.
  exists ex_env, db_empty, [[QIncr cl_a]; [QIncr cl_a]], (cl_tick 0 2 ++ cl_tick 1 6 ++ cl_tick 0 4).
  set (r := csteps _ _ _). set (m1 := FwdMsg 1 (get_slot cl_a) (Some (WIncr cl_a 1))). set (m2 := FwdMsg 2 (get_slot cl_a) (Some (WIncr cl_a 1))).
  assert (X : option_map (fun x => (map (fun k => (k_in k, k_pc k, k_out k)) (cs_conns x), cs_fwd x)) r =
    Some ([([], KIdle, [FInteger 1]); ([], KIdle, [FInteger 2])], [m2; m1])) by (vm_compute; reflexivity).
  destruct r as [x|]; [|done]. cbn [option_map] in X. injection X as X XF. exists x, m1, m2, (get_slot cl_a). split; [done|]. split; [done|].
  destruct (cs_conns x) as [|[i0 p0 o0] [|[i1 p1 o1] [|? ?]]] eqn:C; try done. cbn in X. injection X as -> -> -> -> -> ->.
  split; [by repeat constructor|]. split; [done|]. split; [done|]. split; [done|]. by split.
Qed.
(** The hypotheses of the two theorems above hold in [C75_case]; there two messages have been sent. *)
Example C76_case :
  option_map (fun x => (map fm_id (cs_fwd x), map (fun k => k_pc k) (cs_conns x)))
    (csteps ex_env cl_incr_evs (cs_start db_empty [[QIncr cl_a]; [QIncr cl_a]])) = Some ([2; 1]%N, [KIdle; KIdle]) /\
  option_map (fun x => map fm_id (cs_fwd x)) (csteps ex_env (cl_tick 0 12) (cs_start db_empty [[QIncr cl_a; QIncr cl_a]])) = Some [1; 2]%N.
Proof. split; vm_compute; reflexivity. Qed.
Print Assumptions C76_nothing_lost_partial.
Print Assumptions C76_one_connection_partial.
Print Assumptions C76_reordered_refuted.
