(** Lemmas for SpecFlush.v: interleaved connections against deeds one at a time. *)
From Verif Require Export SpecFlush ClientsFacts.
From Verif Require Import TasksFacts.

Lemma deeds_app en l l' e :
  deeds en (l ++ l') e = let '(e1, r1) := deeds en l e in let '(e2, r2) := deeds en l' e1 in (e2, r1 ++ r2).
Proof.
  revert e; induction l as [|[s|i s] l IH]; intros e; cbn [deeds app]; [by destruct (deeds en l' e)| |apply IH].
  destruct (serve_deed en s e) as [e1 r]. rewrite IH. destruct (deeds en l e1) as [e2 rs]. by destruct (deeds en l' e2).
Qed.
Lemma acts_app i l l' : acts i (l ++ l') = acts i l ++ acts i l'.
Proof. apply flat_map_app. Qed.
Lemma acts_one i s : acts i [Did s] = if Nat.eqb (sv_conn s) i then [inl (sv_req s)] else [].
Proof. unfold acts. cbn. by rewrite app_nil_r. Qed.
Lemma acts_wiped i j s : acts i [Wiped j s] = if Nat.eqb j i then [inr s] else [].
Proof. unfold acts. cbn. by rewrite app_nil_r. Qed.
Lemma dids_app l l' : dids (l ++ l') = dids l ++ dids l'.
Proof. induction l as [|[s|i s] l IH]; cbn; by rewrite ?IH. Qed.
Lemma deeds_none en i l e : Forall (fun d => doer d <> i) l -> answered i (snd (deeds en l e)) = [].
Proof.
  intros F. revert e; induction F as [|d l N _ IH]; intros e; [done|]. destruct d as [s|j s]; cbn [deeds doer] in *; [|apply IH].
  destruct (serve_deed en s e) as [e1 r]. specialize (IH e1). destruct (deeds en l e1) as [e2 rs]. cbn [snd] in *.
  unfold answered in *. cbn [List.filter fst]. destruct (Nat.eqb_spec (sv_conn s) i); done.
Qed.

Lemma single_not_flush q : single q -> no_flush q.
Proof. intros S sync ->. apply (S 0%N). Qed.
Lemma serve_deed_request en s e : no_flush (sv_req s) -> serve_deed en s e = serve_request en (sv_clock s) alone (sv_req s) e.
Proof. intros N. unfold serve_deed. destruct (sv_req s); try done. by destruct (N _ eq_refl). Qed.
Lemma serve_deed_effects en s s' e : brief (sv_req s) -> sv_req s = sv_req s' -> sv_clock s 0%nat = sv_clock s' 0%nat -> sv_clock s 1%nat = sv_clock s' 1%nat ->
  fst (serve_deed en s e) = fst (serve_deed en s' e).
Proof.
  intros [S|(sync & Q)] E E0 E1.
  - pose proof (single_not_flush _ S) as N. rewrite !serve_deed_request by (by rewrite <- ?E). rewrite <- E. by apply serve_effects.
  - unfold serve_deed. by rewrite <- E, Q.
Qed.

(** Changing the instant at which connection [i] formats an answer. *)
Definition redone (i : nat) (d d' : deed) : Prop :=
  match d, d' with Did s, Did s' => reread i s s' | _, _ => d = d' end.
Lemma redone_refl i l : Forall2 (redone i) l l.
Proof. induction l as [|[s|j s] l IH]; constructor; done. Qed.
Lemma redone_deeds en i l l' e : Forall2 (redone i) l l' -> Forall (fun s => brief (sv_req s)) (dids l) ->
  fst (deeds en l e) = fst (deeds en l' e) /\
  forall j, j <> i -> answered j (snd (deeds en l e)) = answered j (snd (deeds en l' e)).
Proof.
  intros F. revert e; induction F as [|[s|i1 s] [s'|i2 s'] l l' R F IH]; intros e S; try done; cbn [redone] in R.
  2: { injection R as <- <-. cbn [dids deeds] in *. by apply IH. }
  destruct R as (C & Q & T0 & T1 & E). cbn [dids] in S. inversion S as [|? ? S1 S2]; subst. cbn [deeds].
  pose proof (serve_deed_effects en s s' e S1 Q T0 T1) as X.
  destruct (serve_deed en s e) as [e1 r] eqn:R1. destruct (serve_deed en s' e) as [e1' r'] eqn:R2. cbn [fst] in X. subst e1'.
  destruct (IH e1 S2) as [Y Z]. destruct (deeds en l e1) as [e2 rs], (deeds en l' e1) as [e2' rs']. cbn [fst snd] in *.
  split; [done|]. intros j J. unfold answered in *. cbn [List.filter fst]. rewrite <- C.
  destruct (Nat.eqb_spec (sv_conn s) j) as [K|K]; [|by apply Z]. cbn [map snd]. rewrite (Z j J). f_equal.
  rewrite (E ltac:(congruence)) in *. congruence.
Qed.
Lemma redone_acts i j l l' : Forall2 (redone i) l l' -> acts j l = acts j l'.
Proof.
  intros F. unfold acts. induction F as [|[s|i1 s] [s'|i2 s'] l l' R F IH]; try done; cbn [redone] in R; cbn [flat_map]; rewrite IH.
  - destruct R as (C & Q & _). by rewrite C, Q.
  - by injection R as <- <-.
Qed.
Lemma redone_dids i l l' : Forall2 (redone i) l l' -> Forall2 (reread i) (dids l) (dids l').
Proof.
  induction 1 as [|[s|i1 s] [s'|i2 s'] l l' R F IH]; cbn [dids]; [constructor|by constructor|done|done|done].
Qed.
Lemma redone_doers i l l' : Forall2 (redone i) l l' -> map doer l = map doer l'.
Proof.
  induction 1 as [|[s|i1 s] [s'|i2 s'] l l' R F IH]; [done| |done|done|]; cbn [map doer]; rewrite IH; cbn [redone] in R.
  - by destruct R as (-> & _).
  - by injection R as <- <-.
Qed.

Lemma plan_no_flush t q cs : plan_of t q = AOk (PCmds cs) -> no_flush q.
Proof. by intros P sync ->. Qed.

Opaque all_slots.
Section invariant.
Context (en : env) (b0 : db) (ins : list (list request)).
Notation e0 := (Effects b0 [] []).

(** Connection [i] has executed the only command of [q], its last request in [l], with outcome [o]. *)
Definition carried (i : nat) (q : request) (o : outcome resp) (out : list frame) (l : list deed) : Prop :=
  exists la lb s c, l = la ++ Did s :: lb /\ sv_conn s = i /\ sv_req s = q /\ Forall (fun d => doer d <> i) lb /\
    not_sync q /\ plan_of (sv_clock s 0%nat) q = AOk (PCmds [c]) /\
    wo_res (snd (db_exec (e_ho en) (sv_clock s 1%nat) c (ef_db (fst (deeds en la e0))))) = o /\
    answered i (snd (deeds en la e0)) = map inl out.

Definition conn_fine (ts : list N) (l : list deed) (i : nat) (k : client) : Prop :=
  let 'Client rest pc out := k in
  let R := answered i (snd (deeds en l e0)) in
  let I := flat_map script (nth i ins []) in
  let A := acts i l in
  match pc with
  | KIdle => R = map inl out /\ I = A ++ flat_map script rest
  | KRun q cs [] => R = map inl out /\ I = A ++ inl q :: flat_map script rest /\ not_sync q /\ exists t, In t ts /\ plan_of t q = AOk (PCmds cs)
  | KRun q cs (r :: rs) => cs = [] /\ rs = [] /\ carried i q (OOk r) out l /\ I = A ++ flat_map script rest
  | KSend q cs rs _ _ o => cs = [] /\ rs = [] /\ carried i q o out l /\ I = A ++ flat_map script rest
  | KFlush ss => R = map inl out /\ exists sync, I = A ++ (map inr ss ++ [inl (QFlushall sync)]) ++ flat_map script rest
  | KWrite f => R = map inl out ++ [inl f] /\ I = A ++ flat_map script rest
  | KEnd h => R = map inl out ++ [inr h] /\ I = A ++ flat_map script rest
  end.

Definition clients_fine (ts : list N) (l : list deed) (x : clients) : Prop :=
  Forall (fun s => brief (sv_req s)) (dids l) /\ in_time ts (dids l) /\
  ef_db (fst (deeds en l e0)) = cs_db x /\
  Forall (fun d => (doer d < length (cs_conns x))%nat) l /\
  Permutation (ef_exp (fst (deeds en l e0))) (cs_exp x ++ concat (map to_send_exp (cs_conns x))) /\
  Permutation (ef_fwd (fst (deeds en l e0))) (cs_fwd x ++ concat (map to_send_fwd (cs_conns x))) /\
  forall i k, cs_conns x !! i = Some k -> conn_fine ts l i k.

(** Another connection's view does not change when a deed of [i] is appended ... *)
Lemma fine_append_conn ts t l i k j d :
  conn_fine ts l i k -> doer d = j -> i <> j -> conn_fine (ts ++ [t]) (l ++ [d]) i k.
Proof.
  intros O C N. destruct k as [rest pc out]. unfold conn_fine in *. rewrite deeds_app.
  assert (A : acts i (l ++ [d]) = acts i l).
  { rewrite acts_app. destruct d as [s|j' s]; cbn [doer] in C; [rewrite acts_one|rewrite acts_wiped]; rewrite C;
      (destruct (Nat.eqb_spec j i); [congruence|]); by rewrite app_nil_r. }
  assert (R : answered i (snd (let '(e1, r1) := deeds en l e0 in let '(e2, r2) := deeds en [d] e1 in (e2, r1 ++ r2)))
            = answered i (snd (deeds en l e0))).
  { destruct (deeds en l e0) as [e1 r1]. destruct d as [s|j' s]; cbn [deeds doer] in *.
    - destruct (serve_deed en s e1) as [e2 r]. cbn [snd]. rewrite answered_app, answered_one. cbn [fst]. rewrite C.
      destruct (Nat.eqb_spec j i); [congruence|]. by rewrite app_nil_r.
    - cbn [snd]. by rewrite app_nil_r. }
  assert (X : forall q o, carried i q o out l -> carried i q o out (l ++ [d])).
  { intros q o (la & lb & s' & c & E & E1 & E2 & E3 & E4). exists la, (lb ++ [d]), s', c. rewrite E, <- app_assoc. split; [done|].
    split; [done|]. split; [done|]. split; [|done]. apply List.Forall_app. split; [done|]. constructor; [|done]. congruence. }
  rewrite A, R. destruct pc as [|q cs rs|q cs rs es fs o|ss|f|h]; try done.
  - destruct rs as [|r rs].
    + destruct O as (O1 & O2 & O3 & t' & O4 & O5). split; [done|]. split; [done|]. split; [done|]. exists t'. split; [|done]. apply in_or_app. by left.
    + destruct O as (O1 & O2 & O3 & O4). split; [done|]. split; [done|]. split; [|done]. by apply X.
  - destruct O as (O1 & O2 & O3 & O4). split; [done|]. split; [done|]. split; [|done]. by apply X.
Qed.

(** ... or redone. *)
Lemma fine_reread_conn ts t l l' i k j :
  conn_fine ts l i k -> Forall2 (redone j) l l' -> Forall (fun s => brief (sv_req s)) (dids l) -> i <> j -> conn_fine (ts ++ [t]) l' i k.
Proof.
  intros O F S N. destruct k as [rest pc out]. unfold conn_fine in *.
  rewrite <- (redone_acts j i l l' F). destruct (redone_deeds en j l l' e0 F S) as [_ R]. rewrite <- (R i N).
  assert (X : forall q o, carried i q o out l -> carried i q o out l').
  { intros q o (la & lb & s & c & E & E1 & E2 & E3 & E4 & E5 & E6 & E7). subst l.
    apply Forall2_app_inv_l in F as (la' & l2' & F1 & F2 & ->). apply Forall2_cons_inv_l in F2 as ([s'|j' s'] & lb' & F2 & F3 & ->); [|done].
    rewrite dids_app in S. apply List.Forall_app in S as [S1 S2].
    destruct (redone_deeds en j la la' e0 F1 S1) as [Y Z].
    destruct F2 as (C & Q & T0 & T1 & _).
    exists la', lb', s', c. split; [done|]. split; [congruence|]. split; [congruence|]. split.
    { pose proof (redone_doers _ _ _ F3) as D. apply (List.Forall_map doer (fun d => d <> i)). rewrite <- D. by apply List.Forall_map. }
    split; [done|]. split; [congruence|]. split; [by rewrite <- T1, <- Y|]. by rewrite <- (Z i N). }
  destruct pc as [|q cs rs|q cs rs es fs o|ss|f|h]; try done.
  - destruct rs as [|r rs].
    + destruct O as (O1 & O2 & O3 & t' & O4 & O5). split; [done|]. split; [done|]. split; [done|]. exists t'. split; [|done]. apply in_or_app. by left.
    + destruct O as (O1 & O2 & O3 & O4). split; [done|]. split; [done|]. split; [|done]. by apply X.
  - destruct O as (O1 & O2 & O3 & O4). split; [done|]. split; [done|]. split; [|done]. by apply X.
Qed.

Lemma fine_keep ts t l x i k k' xs' fw' :
  clients_fine ts l x -> cs_conns x !! i = Some k ->
  Permutation (cs_exp x ++ to_send_exp k) (xs' ++ to_send_exp k') ->
  Permutation (cs_fwd x ++ to_send_fwd k) (fw' ++ to_send_fwd k') ->
  conn_fine (ts ++ [t]) l i k' ->
  clients_fine (ts ++ [t]) l (Clients (cs_db x) xs' fw' (<[i := k']> (cs_conns x))).
Proof.
  intros (S & T & D & LN & PE & PF & O) K P1 P2 C. split; [done|]. split; [by apply in_time_keep|]. split; [done|].
  split; [cbn [cs_conns]; by rewrite insert_length|].
  cbn [cs_exp cs_fwd cs_conns]. split; [by eapply perm_insert|]. split; [by eapply perm_insert|].
  intros j kj J. destruct (decide (i = j)) as [<-|N].
  - rewrite list_lookup_insert in J by (by eapply lookup_lt_Some). by injection J as <-.
  - rewrite list_lookup_insert_ne in J by done. apply (fine_reread_conn ts t l l j kj i); [by apply O|apply redone_refl|done|done].
Qed.

Lemma fine_append ts t l x i k k' s e b' es fs r :
  clients_fine ts l x -> cs_conns x !! i = Some k -> to_send_exp k = [] -> to_send_fwd k = [] ->
  brief (sv_req s) -> sv_conn s = i -> (forall j, In (sv_clock s j) (ts ++ [t])) -> sv_clock s 1%nat = t ->
  fst (deeds en l e0) = e -> serve_deed en s e = (Effects b' (ef_exp e ++ es) (ef_fwd e ++ fs), r) ->
  to_send_exp k' = es -> to_send_fwd k' = fs ->
  conn_fine (ts ++ [t]) (l ++ [Did s]) i k' ->
  clients_fine (ts ++ [t]) (l ++ [Did s]) (Clients b' (cs_exp x) (cs_fwd x) (<[i := k']> (cs_conns x))).
Proof.
  intros (S & T & D & LN & PE & PF & O) K Z1 Z2 Q SC SJ S1 E V X1 X2 C. unfold clients_fine. rewrite dids_app. cbn [dids].
  split; [apply List.Forall_app; split; [done|by constructor]|]. split; [by apply in_time_append|].
  assert (W : fst (deeds en (l ++ [Did s]) e0) = Effects b' (ef_exp e ++ es) (ef_fwd e ++ fs)).
  { rewrite deeds_app. destruct (deeds en l e0) as [e1 r1]. cbn [fst] in E. subst e1. cbn [deeds]. by rewrite V. }
  rewrite W. cbn [ef_db ef_exp ef_fwd cs_db cs_exp cs_fwd cs_conns]. rewrite E in *.
  split; [done|]. split; [|split; [|split]].
  - rewrite insert_length. apply List.Forall_app. split; [done|]. constructor; [|done]. cbn [doer]. rewrite SC. by eapply lookup_lt_Some.
  - rewrite PE. rewrite <- app_assoc. apply Permutation_app_head. rewrite <- (app_nil_l (concat (map to_send_exp (<[i := k']> (cs_conns x))))).
    eapply perm_insert; [done| |].
    + rewrite Permutation_app_comm. reflexivity.
    + rewrite Z1, X1, app_nil_r. done.
  - rewrite PF. rewrite <- app_assoc. apply Permutation_app_head. rewrite <- (app_nil_l (concat (map to_send_fwd (<[i := k']> (cs_conns x))))).
    eapply perm_insert; [done| |].
    + rewrite Permutation_app_comm. reflexivity.
    + rewrite Z2, X2, app_nil_r. done.
  - intros j kj J. destruct (decide (i = j)) as [<-|N].
    + rewrite list_lookup_insert in J by (by eapply lookup_lt_Some). by injection J as <-.
    + rewrite list_lookup_insert_ne in J by done. apply (fine_append_conn ts t l j kj i (Did s)); [by apply O|done|congruence].
Qed.

Lemma fine_wiped ts t l x i k k' s :
  clients_fine ts l x -> cs_conns x !! i = Some k -> to_send_exp k = to_send_exp k' -> to_send_fwd k = to_send_fwd k' ->
  conn_fine (ts ++ [t]) (l ++ [Wiped i s]) i k' ->
  clients_fine (ts ++ [t]) (l ++ [Wiped i s]) (Clients (db_set s dict_empty (cs_db x)) (cs_exp x) (cs_fwd x) (<[i := k']> (cs_conns x))).
Proof.
  intros (S & T & D & LN & PE & PF & O) K Z1 Z2 C. unfold clients_fine. rewrite dids_app, app_nil_r.
  split; [done|]. split; [by apply in_time_keep|].
  assert (W : fst (deeds en (l ++ [Wiped i s]) e0) =
    Effects (db_set s dict_empty (cs_db x)) (ef_exp (fst (deeds en l e0))) (ef_fwd (fst (deeds en l e0)))).
  { rewrite deeds_app. destruct (deeds en l e0) as [e1 r1]. cbn [fst deeds] in *. by rewrite D. }
  rewrite W. cbn [ef_db ef_exp ef_fwd cs_db cs_exp cs_fwd cs_conns]. split; [done|]. split; [|split; [|split]].
  - rewrite insert_length. apply List.Forall_app. split; [done|]. constructor; [|done]. by eapply lookup_lt_Some.
  - eapply perm_insert; [done|done|by rewrite Z1].
  - eapply perm_insert; [done|done|by rewrite Z2].
  - intros j kj J. destruct (decide (i = j)) as [<-|N].
    + rewrite list_lookup_insert in J by (by eapply lookup_lt_Some). by injection J as <-.
    + rewrite list_lookup_insert_ne in J by done. apply (fine_append_conn ts t l j kj i (Wiped i s)); [by apply O|done|congruence].
Qed.

Lemma fine_reread ts t l l' x i k k' :
  clients_fine ts l x -> cs_conns x !! i = Some k -> Forall2 (redone i) l l' ->
  Forall (fun s => forall j, In (sv_clock s j) (ts ++ [t])) (dids l') ->
  to_send_exp k' = to_send_exp k -> to_send_fwd k' = to_send_fwd k -> conn_fine (ts ++ [t]) l' i k' ->
  clients_fine (ts ++ [t]) l' (Clients (cs_db x) (cs_exp x) (cs_fwd x) (<[i := k']> (cs_conns x))).
Proof.
  intros (S & T & D & LN & PE & PF & O) K F J P1 P2 C.
  destruct (redone_deeds en i l l' e0 F S) as [Y _]. pose proof (redone_dids i l l' F) as FD.
  assert (S' : Forall (fun s => brief (sv_req s)) (dids l')).
  { clear -S FD. induction FD as [|s s' l1 l1' (_ & Q & _) _ IH]; [done|]. inversion S; subst. constructor; [by rewrite <- Q|by apply IH]. }
  split; [done|]. split.
  { split; [done|]. intros Z. destruct T as [_ T]. specialize (T (sorted_init _ _ Z)).
    replace (map (fun s => sv_clock s 1%nat) (dids l')) with (map (fun s => sv_clock s 1%nat) (dids l)); [done|].
    clear -FD. induction FD as [|s s' l1 l1' (_ & _ & _ & Q & _) _ IH]; [done|]. cbn [map]. by rewrite IH, Q. }
  rewrite <- Y. split; [done|]. cbn [cs_exp cs_fwd cs_conns]. split.
  { rewrite insert_length. apply (List.Forall_map doer (fun n => (n < length (cs_conns x))%nat)). rewrite <- (redone_doers _ _ _ F). by apply List.Forall_map. }
  split; [eapply perm_insert; [done|done|by rewrite P1]|]. split; [eapply perm_insert; [done|done|by rewrite P2]|].
  intros j kj H. destruct (decide (i = j)) as [<-|N].
  - rewrite list_lookup_insert in H by (by eapply lookup_lt_Some). by injection H as <-.
  - rewrite list_lookup_insert_ne in H by done. apply (fine_reread_conn ts t l l' j kj i); [by apply O|done|done|congruence].
Qed.

(** The reply to a request whose only command has been executed. *)
Lemma carried_answer i q s c la lb out o :
  sv_conn s = i -> sv_req s = q -> Forall (fun d => doer d <> i) lb -> not_sync q -> plan_of (sv_clock s 0%nat) q = AOk (PCmds [c]) ->
  wo_res (snd (db_exec (e_ho en) (sv_clock s 1%nat) c (ef_db (fst (deeds en la e0))))) = o ->
  answered i (snd (deeds en la e0)) = map inl out ->
  answered i (snd (deeds en (la ++ Did s :: lb) e0)) = map inl out ++ [finish_one en (sv_clock s 2%nat) q o].
Proof.
  intros C Q NB NS P W R. rewrite deeds_app. destruct (deeds en la e0) as [ea ra]. cbn [fst snd] in *. cbn [deeds].
  pose proof (plan_no_flush _ _ _ P) as NF. rewrite serve_deed_request by (by rewrite Q). rewrite Q, (serve_plan_one _ _ _ c) by done.
  destruct (db_exec (e_ho en) (sv_clock s 1%nat) c (ef_db ea)) as [b' o']. cbn [snd] in W. rewrite W.
  pose proof (deeds_none en i lb (Effects b' (ef_exp ea ++ wo_exp o') (ef_fwd ea ++ wo_fwd o')) NB) as AN.
  destruct (deeds en lb _) as [e2 r2]. cbn [snd] in *. rewrite answered_app, R. f_equal.
  change (?a :: r2) with ([a] ++ r2). rewrite answered_app, answered_one, AN. cbn [fst snd]. by rewrite C, Nat.eqb_refl.
Qed.

Lemma script_single q : no_flush q -> script q = [inl q].
Proof. intros N. destruct q; try done. by destruct (N _ eq_refl). Qed.

Lemma fine_step ts l x x' i t :
  Forall (Forall brief) ins -> Forall (fun k => Forall brief (k_in k)) (cs_conns x) -> clients_fine ts l x -> cstep en (i, t) x = Some x' ->
  exists l', precedes l l' /\ clients_fine (ts ++ [t]) l' x'.
Proof.
  intros SI SK OK H. unfold cstep in H. cbn [fst snd] in H.
  destruct (cs_conns x !! i) as [k|] eqn:K; [|done].
  assert (BR : precedes l l) by (exists []; by rewrite app_nil_r).
  assert (BA : forall s, precedes l (l ++ [s])) by (intros s; eexists; by rewrite map_app).
  assert (IT : In t (ts ++ [t])) by (apply in_or_app; right; by left).
  pose proof OK as (S & T & D & LN & PE & PF & O). specialize (O i k K).
  assert (SQ : forall q r, flat_map script (nth i ins []) = acts i l ++ inl q :: r -> brief q).
  { intros q r E. assert (X : Forall brief (nth i ins [])).
    { destruct (nth_in_or_default i ins []) as [X| ->]; [|constructor]. rewrite List.Forall_forall in SI. by apply SI. }
    assert (IN : In (inl q) (flat_map script (nth i ins []))) by (rewrite E; apply in_or_app; right; by left).
    apply in_flat_map in IN as (q' & I1 & I2). rewrite List.Forall_forall in X. specialize (X q' I1).
    assert (q' = q) as <-; [|done]. destruct q'; cbn [script] in I2; try (destruct I2 as [I2|[]]; by injection I2).
    apply in_app_or in I2 as [I2|[I2|[]]]; [|by injection I2]. apply in_map_iff in I2 as (? & ? & _). done. }
  assert (SK' : Forall brief (k_in k)) by (eapply Forall_lookup_1 in SK; [exact SK|exact K]).
  destruct (deeds en l e0) as [e rs0] eqn:SE. cbn [fst] in *.
  assert (EE : e = Effects (cs_db x) (ef_exp e) (ef_fwd e)) by (rewrite <- D; by destruct e).
  (* appending a request that changes nothing *)
  assert (AP : forall s q rest r pc out, sv_conn s = i -> sv_req s = q -> brief q -> (forall j, In (sv_clock s j) (ts ++ [t])) -> sv_clock s 1%nat = t ->
     serve_deed en s e = (e, r) -> to_send_exp k = [] -> to_send_fwd k = [] ->
     answered i rs0 = map inl out -> flat_map script (nth i ins []) = acts i l ++ inl q :: flat_map script rest ->
     match pc with KWrite f => r = inl f | KEnd h => r = inr h | _ => False end ->
     exists l', precedes l l' /\ clients_fine (ts ++ [t]) l' (Clients (cs_db x) (cs_exp x) (cs_fwd x) (<[i := Client rest pc out]> (cs_conns x)))).
  { intros s q rest r pc out C Q Sg J C1 V Z1 Z2 R I M. exists (l ++ [Did s]). split; [apply BA|].
    apply (fine_append ts t l x i k (Client rest pc out) s e (cs_db x) [] [] r); try done; try congruence.
    - by rewrite SE.
    - by rewrite !app_nil_r, <- EE.
    - unfold to_send_exp. destruct pc; done.
    - unfold to_send_fwd. destruct pc; done.
    - unfold conn_fine. rewrite deeds_app, SE. cbn [deeds]. rewrite V. cbn [snd].
      rewrite acts_app, acts_one, answered_app, answered_one, R. cbn [fst snd]. rewrite C, Nat.eqb_refl, Q, I.
      rewrite <- app_assoc. destruct pc; subst; done. }
  destruct k as [rest pc out]. unfold conn_step in H. cbn [k_in] in SK'.
  destruct pc as [|q cs rs|q cs rs es fs o|ss|f|h].
  - (* a request is read *)
    destruct rest as [|q rest]; [done|]. cbn [conn_fine] in O. rewrite SE in O. cbn [snd flat_map] in O. destruct O as [O1 O2].
    inversion SK' as [|? ? Sg _]; subst.
    destruct Sg as [Sg|(sync & ->)].
    2: { cbn [plan_of] in H. injection H as <-. exists l. split; [done|]. apply (fine_keep ts t l x i (Client (QFlushall sync :: rest) KIdle out)); try done.
         unfold conn_fine. rewrite SE. cbn [snd]. split; [done|]. exists sync. exact O2. }
    pose proof (single_not_flush q Sg) as NF. rewrite (script_single q NF) in O2. cbn [app] in O2.
    assert (BQ : brief q) by (by left).
    destruct (classic_sync q) as [(s & ->)|NS].
    { injection H as <-. apply (AP (Served i (QSyncsnapshot s) (fun _ => t)) (QSyncsnapshot s) rest (inr (HSnapshot s)) (KEnd (HSnapshot s)) out); done. }
    assert (H' : match plan_of t q with
      | AErr y => Some (Client rest (KWrite (error_reply en q y)) out, cs_db x, cs_exp x, cs_fwd x)
      | APanic => Some (Client rest (KEnd HPanic) out, cs_db x, cs_exp x, cs_fwd x)
      | AOk PFlush => Some (Client rest (KFlush all_slots) out, cs_db x, cs_exp x, cs_fwd x)
      | AOk (PCmds cs) => Some (Client rest (KRun q cs []) out, cs_db x, cs_exp x, cs_fwd x)
      end = match conn_step en t (Client (q :: rest) KIdle out) (cs_db x) (cs_exp x) (cs_fwd x) with y => y end).
    { unfold conn_step. destruct q; first [exfalso; by eapply NS|reflexivity]. }
    unfold conn_step in H'. rewrite <- H' in H. clear H'.
    pose proof (Sg t) as St. destruct (plan_of t q) as [[cs|]|y|] eqn:P; [|done| |]; injection H as <-.
    + exists l. split; [done|]. apply (fine_keep ts t l x i (Client (q :: rest) KIdle out)); try done.
      unfold conn_fine. rewrite SE. cbn [snd]. split; [done|]. split; [done|]. split; [done|]. by exists t.
    + apply (AP (Served i q (fun _ => t)) q rest (inl (error_reply en q y)) (KWrite (error_reply en q y)) out); try done.
      rewrite serve_deed_request by done. by apply serve_plan_err.
    + apply (AP (Served i q (fun _ => t)) q rest (inr HPanic) (KEnd HPanic) out); try done.
      rewrite serve_deed_request by done. by apply serve_plan_panic.
  - destruct cs as [|c cs].
    + destruct rs as [|r rs].
      * (* no command: the answer *)
        cbn [conn_fine] in O. rewrite SE in O. cbn [snd] in O. destruct O as (O1 & O2 & NS & t0 & T0 & P).
        pose proof (SQ q _ O2) as Sg. injection H as <-. pose proof (plan_no_flush _ _ _ P) as NF.
        pose proof (serve_plan_none en (clk3 t0 t t) q e NS P) as V. cbn [clk3] in V. unfold finish_reply in V.
        assert (V' : serve_deed en (Served i q (clk3 t0 t t)) e = serve_request en (clk3 t0 t t) alone q e) by (by apply (serve_deed_request en (Served i q (clk3 t0 t t)))).
        rewrite <- V' in V. clear V'.
        assert (J : forall j, In (clk3 t0 t t j) (ts ++ [t])).
        { intros [|[|j]]; try done. apply in_or_app. by left. }
        destruct (answer en t q []) as [f|y|].
        -- apply (AP (Served i q (clk3 t0 t t)) q rest (inl f) (KWrite f) out); done.
        -- apply (AP (Served i q (clk3 t0 t t)) q rest (inl (error_reply en q y)) (KWrite (error_reply en q y)) out); done.
        -- apply (AP (Served i q (clk3 t0 t t)) q rest (inr HPanic) (KEnd HPanic) out); done.
      * (* the answer after the command *)
        cbn [conn_fine] in O. destruct O as (_ & -> & X & I). injection H as <-.
        destruct X as (la & lb & s & c & -> & C & Q & NB & NS & P & W & R).
        set (s' := Served i q (clk3 (sv_clock s 0%nat) (sv_clock s 1%nat) t)).
        assert (F : Forall2 (redone i) (la ++ Did s :: lb) (la ++ Did s' :: lb)).
        { apply Forall2_app; [apply redone_refl|]. constructor; [|apply redone_refl]. repeat split; done. }
        exists (la ++ Did s' :: lb). split.
        { exists []. rewrite app_nil_r, !map_app. cbn [map]. f_equal. f_equal. subst s'. unfold deed_name. cbn [sv_conn sv_req]. by rewrite C, Q. }
        destruct T as [T1 T2].
        apply (fine_reread ts t (la ++ Did s :: lb) (la ++ Did s' :: lb) x i _ _ OK K F); try by destruct (answer en t q [r]).
        -- rewrite dids_app in T1 |- *. cbn [dids] in T1 |- *. apply List.Forall_app in T1 as [TA TB]. inversion TB as [|? ? TS TB']; subst.
           apply List.Forall_app. split; [|constructor].
           ++ eapply List.Forall_impl; [|exact TA]. intros u U j. apply in_or_app. left. apply U.
           ++ intros [|[|j]]; cbn; [| |done]; apply in_or_app; left; apply TS.
           ++ eapply List.Forall_impl; [|exact TB']. intros u U j. apply in_or_app. left. apply U.
        -- assert (A : acts i (la ++ Did s' :: lb) = acts i (la ++ Did s :: lb)) by (symmetry; by eapply redone_acts).
           pose proof (carried_answer i q s' c la lb out (OOk r) eq_refl eq_refl NB NS P W R) as RR.
           cbn [finish_one sv_clock s' clk3] in RR. unfold conn_fine. rewrite A, RR. unfold finish_reply. by destruct (answer en t q [r]).
    + (* a command is executed *)
      destruct rs as [|r rs]; [|cbn [conn_fine] in O; by destruct O].
      cbn [conn_fine] in O. rewrite SE in O. cbn [snd] in O. destruct O as (O1 & O2 & NS & t0 & T0 & P).
      pose proof (SQ q _ O2) as Sg. pose proof (plan_no_flush _ _ _ P) as NF.
      assert (cs = []) as ->.
      { destruct Sg as [Sg|(sync & ->)]; [|done]. pose proof (Sg t0) as SL. rewrite P in SL. destruct cs as [|? ?]; [done|cbn in SL; lia]. }
      destruct (db_exec (e_ho en) t c (cs_db x)) as [b' o] eqn:DE. injection H as <-.
      assert (J : forall j, In (clk3 t0 t t j) (ts ++ [t])).
      { intros [|[|j]]; try done. apply in_or_app. by left. }
      set (s := Served i q (clk3 t0 t t)). exists (l ++ [Did s]). split; [apply BA|].
      assert (V : serve_deed en s e =
        (Effects b' (ef_exp e ++ wo_exp o) (ef_fwd e ++ wo_fwd o), finish_one en t q (wo_res o))).
      { rewrite serve_deed_request by done. cbn [sv_req sv_clock s]. rewrite (serve_plan_one _ _ _ c) by done. cbn [clk3]. rewrite D, DE. done. }
      apply (fine_append ts t l x i _ _ s e b' (wo_exp o) (wo_fwd o) (finish_one en t q (wo_res o)) OK K); try done.
      { by rewrite SE. }
      unfold conn_fine. split; [done|]. split; [done|]. split.
      { exists l, [], s, c. rewrite SE. cbn [fst snd]. subst s. cbn [sv_clock sv_conn sv_req clk3]. rewrite D, DE. done. }
      rewrite acts_app, acts_one. subst s. cbn [sv_conn sv_req]. rewrite Nat.eqb_refl, O2, <- app_assoc. done.
  - cbn [conn_fine] in O. destruct O as (-> & -> & X & I).
    destruct es as [|m es].
    + destruct fs as [|m fs].
      * (* back in apply, or an error *)
        injection H as <-. exists l. split; [done|].
        apply (fine_keep ts t l x i (Client rest (KSend q [] [] [] [] o) out)); try done; try by destruct o.
        unfold conn_fine. destruct o as [r|y|]; cbn [app].
        -- by repeat split.
        -- destruct X as (la & lb & s & c & E & C & Q & NB & NS & P & W & R). split; [|done]. rewrite E.
           exact (carried_answer i q s c la lb out _ C Q NB NS P W R).
        -- destruct X as (la & lb & s & c & E & C & Q & NB & NS & P & W & R). split; [|done]. rewrite E.
           exact (carried_answer i q s c la lb out _ C Q NB NS P W R).
      * injection H as <-. exists l. split; [done|].
        apply (fine_keep ts t l x i (Client rest (KSend q [] [] [] (m :: fs) o) out)); try done.
        unfold to_send_fwd. cbn [k_pc]. by rewrite <- app_assoc.
    + injection H as <-. exists l. split; [done|].
      apply (fine_keep ts t l x i (Client rest (KSend q [] [] (m :: es) fs o) out)); try done.
      unfold to_send_exp. cbn [k_pc]. by rewrite <- app_assoc.
  - (* FLUSHALL *)
    cbn [conn_fine] in O. rewrite SE in O. cbn [snd] in O. destruct O as (O1 & sync & O2). destruct ss as [|s ss].
    + injection H as <-. apply (AP (Served i (QFlushall sync) (fun _ => t)) (QFlushall sync) rest (inl frame_ok) (KWrite frame_ok) out); try done.
      right. by exists sync.
    + injection H as <-. exists (l ++ [Wiped i s]). split; [apply BA|]. unfold slot_flush.
      apply (fine_wiped ts t l x i (Client rest (KFlush (s :: ss)) out)); try done.
      unfold conn_fine. rewrite deeds_app, SE. cbn [deeds snd]. rewrite app_nil_r. split; [done|]. exists sync.
      rewrite acts_app, acts_wiped, Nat.eqb_refl, O2, <- !app_assoc. done.
  - injection H as <-. cbn [conn_fine] in O. rewrite SE in O. cbn [snd] in O. destruct O as [O1 O2]. exists l. split; [done|].
    apply (fine_keep ts t l x i (Client rest (KWrite f) out)); try done.
    unfold conn_fine. rewrite SE. cbn [snd]. rewrite map_app. by split.
  - done.
Qed.

Lemma precedes_trans l1 l2 l3 : precedes l1 l2 -> precedes l2 l3 -> precedes l1 l3.
Proof. intros (r & E) (r' & E'). exists (r ++ r'). by rewrite E', E, app_assoc. Qed.

(** What is to come only ever gets less. *)
Lemma inputs_step x x' ev (P : request -> Prop) : cstep en ev x = Some x' -> Forall (fun k => Forall P (k_in k)) (cs_conns x) -> Forall (fun k => Forall P (k_in k)) (cs_conns x').
Proof.
  intros H F. unfold cstep in H. destruct (cs_conns x !! fst ev) as [k|] eqn:K; [|done].
  destruct (conn_step _ _ _ _ _ _) as [[[[k' b] xs] fw]|] eqn:S; [|done]. injection H as <-. cbn [cs_conns].
  pose proof (Forall_lookup_1 _ _ _ _ F K) as FK. apply Forall_insert; [done|].
  destruct k as [rest pc out]. cbn [k_in] in FK.
  destruct pc as [|q [|c cs] rs|q cs rs [|m es] [|f fs] o|[|s ss]|f|h]; cbn [conn_step] in S; try done; try (injection S; intros; by subst).
  - destruct rest as [|q rest]; [done|]. inversion FK; subst.
    destruct q; try (injection S; intros; by subst); destruct (plan_of _ _) as [[cs|]| |]; injection S; intros; by subst.
  - destruct (db_exec _ _ _ _). injection S; intros; by subst.
Qed.

Lemma fine_start : clients_fine [] [] (cs_start b0 ins).
Proof.
  split; [constructor|]. split; [split; constructor|]. split; [done|]. split; [constructor|].
  assert (Z : forall {A} (f : client -> list A), (forall l, f (Client l KIdle []) = []) -> concat (map f (map (fun l => Client l KIdle []) ins)) = []).
  { intros A f F. induction ins as [|a r IH]; [done|]. cbn [map concat]. by rewrite F, IH. }
  cbn [cs_start cs_exp cs_fwd cs_conns deeds fst ef_exp ef_fwd]. rewrite !Z by done. split; [done|]. split; [done|].
  intros i k K. rewrite list_lookup_fmap in K. destruct (ins !! i) as [q|] eqn:E; [|done]. injection K as <-. cbn.
  split; [done|]. by rewrite (nth_lookup_Some ins i [] q E).
Qed.

Lemma fine_accounts ts l x : clients_fine ts l x -> accounts en b0 ins l x.
Proof.
  intros (_ & _ & D & LN & _ & _ & O). unfold accounts. destruct (deeds en l e0) as [e rs] eqn:SE. cbn [fst] in D. split; [done|]. split; [done|].
  intros i k K. specialize (O i k K). destruct k as [rest pc out]. cbn [k_out k_pc k_in].
  unfold conn_fine in O. rewrite SE in O. cbn [snd] in O.
  assert (X : forall q o, carried i q o out l -> exists r, answered i rs = map inl out ++ [r]).
  { intros q o (la & lb & s & c & E & C & Q & NB & NS & P & W & R).
    pose proof (carried_answer i q s c la lb out o C Q NB NS P W R) as AN. rewrite <- E, SE in AN. by eexists. }
  destruct pc as [|q cs rs'|q cs rs' es fs o|ss|f|h].
  - destruct O as [O1 O2]. split; [by eexists|]. split; [|done]. exists []. rewrite app_nil_r. split; [done|cbn; lia].
  - destruct rs' as [|r rs'].
    + destruct O as (O1 & O2 & _). split; [by eexists|]. split; [|done]. exists []. rewrite app_nil_r. split; [done|cbn; lia].
    + destruct O as (_ & _ & O1 & O2). split; [by eexists|]. split; [|done]. destruct (X _ _ O1) as (r' & E). exists [r']. split; [done|cbn; lia].
  - destruct O as (_ & _ & O1 & O2). split; [by eexists|]. split; [|done]. destruct (X _ _ O1) as (r' & E). exists [r']. split; [done|cbn; lia].
  - destruct O as (O1 & sync & O2). split; [by eexists|]. split; [|done]. exists []. rewrite app_nil_r. split; [done|cbn; lia].
  - destruct O as [O1 O2]. split; [by eexists|]. split; [|done]. exists [inl f]. split; [done|cbn; lia].
  - destruct O as [O1 O2]. split; [by eexists|]. split; [|done]. exists [inr h]. split; [done|cbn; lia].
Qed.
End invariant.
