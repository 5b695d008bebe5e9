(** Lemmas about Clients.v: interleaved connections against requests served one at a time. *)
From Verif Require Export SpecClients ServerFacts.
From Verif Require Import TasksFacts.

(** ** Requests served alone *)
Lemma serial_app en l l' e :
  serial en (l ++ l') e =
  let '(e1, r1) := serial en l e in let '(e2, r2) := serial en l' e1 in (e2, r1 ++ r2).
Proof.
  revert e; induction l as [|s l IH]; intros e; cbn [serial app]; [by destruct (serial en l' e)|].
  destruct (serve_request en (sv_clock s) alone (sv_req s) e) as [e1 r]. rewrite IH.
  destruct (serial en l e1) as [e2 rs]. by destruct (serial en l' e2).
Qed.

Lemma asked_app i l l' : asked i (l ++ l') = asked i l ++ asked i l'.
Proof. unfold asked. by rewrite List.filter_app, map_app. Qed.
Lemma answered_app i l l' : answered i (l ++ l') = answered i l ++ answered i l'.
Proof. unfold answered. by rewrite List.filter_app, map_app. Qed.
Lemma asked_one i s : asked i [s] = if Nat.eqb (sv_conn s) i then [sv_req s] else [].
Proof. unfold asked. cbn. by destruct (Nat.eqb (sv_conn s) i). Qed.
Lemma answered_one i r : answered i [r] = if Nat.eqb (fst r) i then [snd r] else [].
Proof. unfold answered. cbn. by destruct (Nat.eqb (fst r) i). Qed.

Lemma answered_none en i l e : Forall (fun s => sv_conn s <> i) l -> answered i (snd (serial en l e)) = [].
Proof.
  intros F. revert e; induction F as [|s l N _ IH]; intros e; [done|]. cbn [serial].
  destruct (serve_request en (sv_clock s) alone (sv_req s) e) as [e1 r]. specialize (IH e1).
  destruct (serial en l e1) as [e2 rs]. cbn [snd] in *. unfold answered in *. cbn [List.filter fst].
  destruct (Nat.eqb_spec (sv_conn s) i); done.
Qed.

(** What one request does alone, with at most one command. *)
Definition not_sync (q : request) : Prop := forall s, q <> QSyncsnapshot s.

Lemma classic_sync q : (exists s, q = QSyncsnapshot s) \/ not_sync q.
Proof. destruct q; try (right; intros s; discriminate). left. by eexists. Qed.

Definition finish_reply (en : env) (t : N) (q : request) (rs : list resp) : frame + hend :=
  match answer en t q rs with
  | AOk f => inl f
  | AErr x => inl (error_reply en q x)
  | APanic => inr HPanic
  end.

Definition finish_one (en : env) (t : N) (q : request) (o : outcome resp) : frame + hend :=
  match o with
  | OOk r => finish_reply en t q [r]
  | OErr x => inl (error_reply en q (SDict x))
  | OPanic => inr HPanic
  end.

Lemma serve_not_sync en clk q e : not_sync q ->
  serve_request en clk alone q e =
  match plan_of (clk 0%nat) q with
  | AErr x => (e, inl (error_reply en q x))
  | APanic => (e, inr HPanic)
  | AOk PFlush => (Effects (db_flushall (ef_db e)) (ef_exp e) (ef_fwd e), inl frame_ok)
  | AOk (PCmds cs) =>
      let '(e', rs) := run_cmds (e_ho en) (fun i => clk (S i)) alone cs e in
      (e', match abind rs (answer en (clk (S (length cs))) q) with
           | AOk f => inl f
           | AErr x => inl (error_reply en q x)
           | APanic => inr HPanic
           end)
  end.
Proof. intros N. destruct q; first [exfalso; by eapply N|reflexivity]. Qed.

Lemma serve_plan_one en clk q c e : not_sync q -> plan_of (clk 0%nat) q = AOk (PCmds [c]) ->
  serve_request en clk alone q e =
  let '(b', o) := db_exec (e_ho en) (clk 1%nat) c (ef_db e) in
  (Effects b' (ef_exp e ++ wo_exp o) (ef_fwd e ++ wo_fwd o), finish_one en (clk 2%nat) q (wo_res o)).
Proof.
  intros N P. rewrite serve_not_sync by done. rewrite P. cbn [run_cmds length]. unfold alone.
  destruct (db_exec (e_ho en) (clk 1%nat) c (ef_db e)) as [b' o]. by destruct (wo_res o).
Qed.

Lemma serve_plan_none en clk q e : not_sync q -> plan_of (clk 0%nat) q = AOk (PCmds []) ->
  serve_request en clk alone q e = (e, finish_reply en (clk 1%nat) q []).
Proof. intros N P. rewrite serve_not_sync by done. by rewrite P. Qed.

Lemma serve_plan_err en clk q e x : not_sync q -> plan_of (clk 0%nat) q = AErr x ->
  serve_request en clk alone q e = (e, inl (error_reply en q x)).
Proof. intros N P. rewrite serve_not_sync by done. by rewrite P. Qed.

Lemma serve_plan_panic en clk q e : not_sync q -> plan_of (clk 0%nat) q = APanic -> serve_request en clk alone q e = (e, inr HPanic).
Proof. intros N P. rewrite serve_not_sync by done. by rewrite P. Qed.

Lemma serve_effects en clk clk' q e : single q -> clk 0%nat = clk' 0%nat -> clk 1%nat = clk' 1%nat ->
  fst (serve_request en clk alone q e) = fst (serve_request en clk' alone q e).
Proof.
  intros S E0 E1. destruct (classic_sync q) as [(s & ->)|N]; [done|].
  specialize (S (clk 0%nat)). destruct (plan_of (clk 0%nat) q) as [[cs|]|x|] eqn:P; [|done| |].
  - destruct cs as [|c [|? ?]]; [| |cbn in S; lia].
    + rewrite (serve_plan_none _ clk), (serve_plan_none _ clk'); congruence || done.
    + rewrite (serve_plan_one _ clk _ c), (serve_plan_one _ clk' _ c) by (congruence || done). rewrite E1. by destruct (db_exec _ _ _ _).
  - rewrite (serve_plan_err _ clk _ _ x), (serve_plan_err _ clk' _ _ x); congruence || done.
  - rewrite (serve_plan_panic _ clk), (serve_plan_panic _ clk'); congruence || done.
Qed.

(** ** Changing the instant at which connection [i] formats an answer *)
Definition reread (i : nat) (s s' : serial_entry) : Prop :=
  sv_conn s = sv_conn s' /\ sv_req s = sv_req s' /\ sv_clock s 0%nat = sv_clock s' 0%nat /\ sv_clock s 1%nat = sv_clock s' 1%nat /\
  (sv_conn s <> i -> s = s').

Lemma reread_refl i l : Forall2 (reread i) l l.
Proof. induction l; constructor; done. Qed.

Lemma reread_serial en i l l' e : Forall2 (reread i) l l' -> Forall (fun s => single (sv_req s)) l ->
  fst (serial en l e) = fst (serial en l' e) /\
  forall j, j <> i -> answered j (snd (serial en l e)) = answered j (snd (serial en l' e)).
Proof.
  intros F. revert e; induction F as [|s s' l l' (C & Q & T0 & T1 & E) F IH]; intros e S; [done|].
  inversion S as [|? ? S1 S2]; subst. cbn [serial].
  pose proof (serve_effects en (sv_clock s) (sv_clock s') (sv_req s) e S1 T0 T1) as X.
  rewrite <- Q. destruct (serve_request en (sv_clock s) alone (sv_req s) e) as [e1 r] eqn:R1.
  destruct (serve_request en (sv_clock s') alone (sv_req s) e) as [e1' r'] eqn:R2. cbn [fst] in X. subst e1'.
  destruct (IH e1 S2) as [Y Z]. destruct (serial en l e1) as [e2 rs], (serial en l' e1) as [e2' rs']. cbn [fst snd] in *.
  split; [done|]. intros j J. unfold answered in *. cbn [List.filter fst]. rewrite <- C.
  destruct (Nat.eqb_spec (sv_conn s) j) as [K|K]; [|by apply Z]. cbn [map snd]. rewrite (Z j J). f_equal.
  rewrite (E ltac:(congruence)) in *. congruence.
Qed.

Lemma reread_asked i j l l' : Forall2 (reread i) l l' -> asked j l = asked j l'.
Proof.
  intros F. unfold asked. induction F as [|s s' l l' (C & Q & _) F IH]; [done|]. cbn [List.filter]. rewrite <- C.
  destruct (Nat.eqb (sv_conn s) j); [|done]. cbn [map]. by rewrite IH, Q.
Qed.

(** ** The invariant *)
Lemma csteps_app en evs evs' x :
  csteps en (evs ++ evs') x = match csteps en evs x with Some y => csteps en evs' y | None => None end.
Proof. revert x; induction evs as [|ev evs IH]; intros x; [done|]. cbn [app csteps]. destruct (cstep en ev x); [apply IH|done]. Qed.

Lemma csteps_length en evs x x' : csteps en evs x = Some x' -> length (cs_conns x') = length (cs_conns x).
Proof.
  revert x; induction evs as [|ev evs IH]; intros x H; cbn [csteps] in H; [by injection H as <-|].
  destruct (cstep en ev x) as [y|] eqn:S; [|done]. rewrite (IH y H). unfold cstep in S.
  destruct (cs_conns x !! fst ev) as [k|]; [|done]. destruct (conn_step _ _ _ _ _ _) as [[[[k' b] xs] fw]|]; [|done].
  injection S as <-. apply insert_length.
Qed.
Lemma filter_perm {A} (f : A -> bool) l l' : Permutation l l' -> Permutation (List.filter f l) (List.filter f l').
Proof.
  induction 1 as [|a l l' _ IH|a b l|l1 l2 l3 _ IH1 _ IH2]; cbn [List.filter].
  - done.
  - destruct (f a); [by apply Permutation_cons|done].
  - destruct (f a), (f b); try done. apply Permutation_swap.
  - by transitivity (List.filter f l2).
Qed.

Section invariant.
Context (en : env) (b0 : db) (ins : list (list request)).
Notation e0 := (Effects b0 [] []).

(** Connection [i] has executed the only command of [q], its last request in [l], with outcome [o]. *)
Definition executed (i : nat) (q : request) (o : outcome resp) (out : list frame) (l : list serial_entry) : Prop :=
  exists la lb s c, l = la ++ s :: lb /\ sv_conn s = i /\ sv_req s = q /\ Forall (fun s => sv_conn s <> i) lb /\
    not_sync q /\ plan_of (sv_clock s 0%nat) q = AOk (PCmds [c]) /\
    wo_res (snd (db_exec (e_ho en) (sv_clock s 1%nat) c (ef_db (fst (serial en la e0))))) = o /\
    answered i (snd (serial en la e0)) = map inl out.

Definition conn_ok (ts : list N) (l : list serial_entry) (i : nat) (k : client) : Prop :=
  let 'Client rest pc out := k in
  let R := answered i (snd (serial en l e0)) in
  let I := nth i ins [] in
  let A := asked i l in
  match pc with
  | KIdle => R = map inl out /\ I = A ++ rest
  | KRun q cs [] => R = map inl out /\ I = A ++ q :: rest /\ not_sync q /\ exists t, In t ts /\ plan_of t q = AOk (PCmds cs)
  | KRun q cs (r :: rs) => cs = [] /\ rs = [] /\ executed i q (OOk r) out l /\ I = A ++ rest
  | KSend q cs rs _ _ o => cs = [] /\ rs = [] /\ executed i q o out l /\ I = A ++ rest
  | KFlush _ => False
  | KWrite f => R = map inl out ++ [inl f] /\ I = A ++ rest
  | KEnd h => R = map inl out ++ [inr h] /\ I = A ++ rest
  end.

Definition to_send_exp (k : client) : list exp_msg := match k_pc k with KSend _ _ _ es _ _ => es | _ => [] end.
Definition to_send_fwd (k : client) : list fwd_msg := match k_pc k with KSend _ _ _ _ fs _ => fs | _ => [] end.

Definition in_time (ts : list N) (l : list serial_entry) : Prop :=
  Forall (fun s => forall j, In (sv_clock s j) ts) l /\
  (StronglySorted N.le ts -> StronglySorted N.le (map (fun s => sv_clock s 1%nat) l)).

Definition clients_ok (ts : list N) (l : list serial_entry) (x : clients) : Prop :=
  Forall (fun s => single (sv_req s)) l /\ in_time ts l /\
  ef_db (fst (serial en l e0)) = cs_db x /\
  Forall (fun s => (sv_conn s < length (cs_conns x))%nat) l /\
  Permutation (ef_exp (fst (serial en l e0))) (cs_exp x ++ concat (map to_send_exp (cs_conns x))) /\
  Permutation (ef_fwd (fst (serial en l e0))) (cs_fwd x ++ concat (map to_send_fwd (cs_conns x))) /\
  forall i k, cs_conns x !! i = Some k -> conn_ok ts l i k.

(** Another connection's view does not change when a request of [i] is appended ... *)
Lemma conn_ok_append ts t l i k j s :
  conn_ok ts l i k -> sv_conn s = j -> i <> j -> conn_ok (ts ++ [t]) (l ++ [s]) i k.
Proof.
  intros O C N. destruct k as [rest pc out]. unfold conn_ok in *. rewrite serial_app.
  assert (A : asked i (l ++ [s]) = asked i l).
  { rewrite asked_app, asked_one, C. destruct (Nat.eqb_spec j i); [congruence|]. by rewrite app_nil_r. }
  assert (R : answered i (snd (let '(e1, r1) := serial en l e0 in let '(e2, r2) := serial en [s] e1 in (e2, r1 ++ r2)))
            = answered i (snd (serial en l e0))).
  { destruct (serial en l e0) as [e1 r1]. cbn [serial]. destruct (serve_request en (sv_clock s) alone (sv_req s) e1) as [e2 r].
    cbn [snd]. rewrite answered_app, answered_one. cbn [fst]. rewrite C. destruct (Nat.eqb_spec j i); [congruence|]. by rewrite app_nil_r. }
  assert (X : forall q o, executed i q o out l -> executed i q o out (l ++ [s])).
  { intros q o (la & lb & s' & c & E & E1 & E2 & E3 & E4). exists la, (lb ++ [s]), s', c. rewrite E, <- app_assoc. split; [done|].
    split; [done|]. split; [done|]. split; [|done]. apply List.Forall_app. split; [done|]. constructor; [|done]. congruence. }
  rewrite A, R. destruct pc as [|q cs rs|q cs rs es fs o|ss|f|h]; try done.
  - destruct rs as [|r rs].
    + destruct O as (O1 & O2 & O3 & t' & O4 & O5). split; [done|]. split; [done|]. split; [done|]. exists t'. split; [|done]. apply in_or_app. by left.
    + destruct O as (O1 & O2 & O3 & O4). split; [done|]. split; [done|]. split; [|done]. by apply X.
  - destruct O as (O1 & O2 & O3 & O4). split; [done|]. split; [done|]. split; [|done]. by apply X.
Qed.

(** ... or reread. *)
Lemma conn_ok_reread ts t l l' i k j :
  conn_ok ts l i k -> Forall2 (reread j) l l' -> Forall (fun s => single (sv_req s)) l -> i <> j -> conn_ok (ts ++ [t]) l' i k.
Proof.
  intros O F S N. destruct k as [rest pc out]. unfold conn_ok in *.
  rewrite <- (reread_asked j i l l' F). destruct (reread_serial en j l l' e0 F S) as [_ R]. rewrite <- (R i N).
  assert (X : forall q o, executed i q o out l -> executed i q o out l').
  { intros q o (la & lb & s & c & E & E1 & E2 & E3 & E4 & E5 & E6 & E7). subst l.
    apply Forall2_app_inv_l in F as (la' & l2' & F1 & F2 & ->). apply Forall2_cons_inv_l in F2 as (s' & lb' & F2 & F3 & ->).
    apply List.Forall_app in S as [S1 S2].
    destruct (reread_serial en j la la' e0 F1 S1) as [Y Z].
    destruct F2 as (C & Q & T0 & T1 & _).
    exists la', lb', s', c. split; [done|]. split; [congruence|]. split; [congruence|]. split.
    { clear -E3 F3. induction F3 as [|u u' lb lb' (U & _) _ IH]; [done|]. inversion E3; subst. constructor; [congruence|by apply IH]. }
    split; [done|]. split; [congruence|]. split; [by rewrite <- T1, <- Y|]. by rewrite <- (Z i N). }
  destruct pc as [|q cs rs|q cs rs es fs o|ss|f|h]; try done.
  - destruct rs as [|r rs].
    + destruct O as (O1 & O2 & O3 & t' & O4 & O5). split; [done|]. split; [done|]. split; [done|]. exists t'. split; [|done]. apply in_or_app. by left.
    + destruct O as (O1 & O2 & O3 & O4). split; [done|]. split; [done|]. split; [|done]. by apply X.
  - destruct O as (O1 & O2 & O3 & O4). split; [done|]. split; [done|]. split; [|done]. by apply X.
Qed.

Lemma sorted_app_last t (ts : list N) u : StronglySorted N.le (ts ++ [t]) -> In u (ts ++ [t]) -> (u <= t)%N.
Proof.
  induction ts as [|a ts IH]; cbn [app]; intros S I.
  - destruct I as [->|[]]. lia.
  - inversion S as [|? ? S1 S2]; subst. destruct I as [->|I]; [|by apply IH].
    rewrite List.Forall_forall in S2. apply S2. apply in_or_app. right. by left.
Qed.
Lemma sorted_init t (ts : list N) : StronglySorted N.le (ts ++ [t]) -> StronglySorted N.le ts.
Proof.
  induction ts as [|a ts IH]; cbn [app]; intros S; [constructor|]. inversion S as [|? ? S1 S2]; subst.
  constructor; [by apply IH|]. by apply List.Forall_app in S2 as [S2 _].
Qed.
Lemma sorted_snoc (l : list N) t : StronglySorted N.le l -> Forall (fun u => (u <= t)%N) l -> StronglySorted N.le (l ++ [t]).
Proof.
  induction 1 as [|a l S IH F]; intros G; cbn [app]; [repeat constructor|]. inversion G as [|? ? G1 G2]; subst.
  constructor; [by apply IH|]. apply List.Forall_app. split; [done|by constructor].
Qed.

Lemma in_time_keep ts t l : in_time ts l -> in_time (ts ++ [t]) l.
Proof.
  intros [A B]. split.
  - eapply List.Forall_impl; [|exact A]. intros s H j. apply in_or_app. left. apply H.
  - intros S. apply B. by eapply sorted_init.
Qed.
Lemma in_time_append ts t l s : in_time ts l -> (forall j, In (sv_clock s j) (ts ++ [t])) -> sv_clock s 1%nat = t -> in_time (ts ++ [t]) (l ++ [s]).
Proof.
  intros I H E. destruct (in_time_keep ts t l I) as [A B]. split.
  - apply List.Forall_app. split; [done|]. by constructor.
  - intros S. rewrite map_app. cbn [map]. rewrite E. apply sorted_snoc; [by apply B|].
    apply List.Forall_forall. intros u U. apply in_map_iff in U as (s' & <- & U). apply (sorted_app_last t ts); [done|].
    rewrite List.Forall_forall in A. by apply A.
Qed.

Lemma perm_insert {A} (f : client -> list A) (cs : list client) i k k' (xs xs' ys : list A) :
  cs !! i = Some k -> Permutation ys (xs ++ concat (map f cs)) -> Permutation (xs ++ f k) (xs' ++ f k') ->
  Permutation ys (xs' ++ concat (map f (<[i := k']> cs))).
Proof.
  intros K P Q. rewrite P. destruct (concat_insert f cs i k K) as (l1 & l2 & E1 & E2). rewrite E1, E2.
  transitivity ((xs ++ f k) ++ l1 ++ l2).
  { rewrite <- !app_assoc. apply Permutation_app_head. rewrite !app_assoc. apply Permutation_app_tail, Permutation_app_comm. }
  rewrite Q. rewrite <- !app_assoc. apply Permutation_app_head. rewrite !app_assoc. apply Permutation_app_tail, Permutation_app_comm.
Qed.

Lemma ok_keep ts t l x i k k' xs' fw' :
  clients_ok ts l x -> cs_conns x !! i = Some k ->
  Permutation (cs_exp x ++ to_send_exp k) (xs' ++ to_send_exp k') ->
  Permutation (cs_fwd x ++ to_send_fwd k) (fw' ++ to_send_fwd k') ->
  conn_ok (ts ++ [t]) l i k' ->
  clients_ok (ts ++ [t]) l (Clients (cs_db x) xs' fw' (<[i := k']> (cs_conns x))).
Proof.
  intros (S & T & D & LN & PE & PF & O) K P1 P2 C. split; [done|]. split; [by apply in_time_keep|]. split; [done|].
  split; [cbn [cs_conns]; by rewrite insert_length|].
  cbn [cs_exp cs_fwd cs_conns]. split; [by eapply perm_insert|]. split; [by eapply perm_insert|].
  intros j kj J. destruct (decide (i = j)) as [<-|N].
  - rewrite list_lookup_insert in J by (by eapply lookup_lt_Some). by injection J as <-.
  - rewrite list_lookup_insert_ne in J by done. apply (conn_ok_reread ts t l l j kj i); [by apply O|apply reread_refl|done|done].
Qed.

Lemma ok_append ts t l x i k k' s e b' es fs r :
  clients_ok ts l x -> cs_conns x !! i = Some k -> to_send_exp k = [] -> to_send_fwd k = [] ->
  single (sv_req s) -> sv_conn s = i -> (forall j, In (sv_clock s j) (ts ++ [t])) -> sv_clock s 1%nat = t ->
  fst (serial en l e0) = e -> serve_request en (sv_clock s) alone (sv_req s) e = (Effects b' (ef_exp e ++ es) (ef_fwd e ++ fs), r) ->
  to_send_exp k' = es -> to_send_fwd k' = fs ->
  conn_ok (ts ++ [t]) (l ++ [s]) i k' ->
  clients_ok (ts ++ [t]) (l ++ [s]) (Clients b' (cs_exp x) (cs_fwd x) (<[i := k']> (cs_conns x))).
Proof.
  intros (S & T & D & LN & PE & PF & O) K Z1 Z2 Q SC SJ S1 E V X1 X2 C.
  split; [apply List.Forall_app; split; [done|by constructor]|]. split; [by apply in_time_append|].
  assert (W : fst (serial en (l ++ [s]) e0) = Effects b' (ef_exp e ++ es) (ef_fwd e ++ fs)).
  { rewrite serial_app. destruct (serial en l e0) as [e1 r1]. cbn [fst] in E. subst e1. cbn [serial]. by rewrite V. }
  rewrite W. cbn [ef_db ef_exp ef_fwd cs_db cs_exp cs_fwd cs_conns]. rewrite E in *.
  split; [done|]. split; [|split; [|split]].
  - rewrite insert_length. apply List.Forall_app. split; [done|]. constructor; [|done]. rewrite SC. by eapply lookup_lt_Some.
  - rewrite PE. rewrite <- app_assoc. apply Permutation_app_head. rewrite <- (app_nil_l (concat (map to_send_exp (<[i := k']> (cs_conns x))))).
    eapply perm_insert; [done| |].
    + rewrite Permutation_app_comm. reflexivity.
    + rewrite Z1, X1, app_nil_r. done.
  - rewrite PF. rewrite <- app_assoc. apply Permutation_app_head. rewrite <- (app_nil_l (concat (map to_send_fwd (<[i := k']> (cs_conns x))))).
    eapply perm_insert; [done| |].
    + rewrite Permutation_app_comm. reflexivity.
    + rewrite Z2, X2, app_nil_r. done.
  - intros j kj J. destruct (decide (i = j)) as [<-|N].
    + rewrite list_lookup_insert in J by (by eapply lookup_lt_Some). by injection J as <-.
    + rewrite list_lookup_insert_ne in J by done. apply (conn_ok_append ts t l j kj i s); [by apply O|done|congruence].
Qed.

Lemma ok_reread ts t l l' x i k k' :
  clients_ok ts l x -> cs_conns x !! i = Some k -> Forall2 (reread i) l l' ->
  Forall (fun s => forall j, In (sv_clock s j) (ts ++ [t])) l' ->
  to_send_exp k' = to_send_exp k -> to_send_fwd k' = to_send_fwd k -> conn_ok (ts ++ [t]) l' i k' ->
  clients_ok (ts ++ [t]) l' (Clients (cs_db x) (cs_exp x) (cs_fwd x) (<[i := k']> (cs_conns x))).
Proof.
  intros (S & T & D & LN & PE & PF & O) K F J P1 P2 C.
  destruct (reread_serial en i l l' e0 F S) as [Y _].
  assert (S' : Forall (fun s => single (sv_req s)) l').
  { clear -S F. induction F as [|s s' l l' (_ & Q & _) _ IH]; [done|]. inversion S; subst. constructor; [by rewrite <- Q|by apply IH]. }
  split; [done|]. split.
  { split; [done|]. intros Z. destruct T as [_ T]. specialize (T (sorted_init _ _ Z)).
    replace (map (fun s => sv_clock s 1%nat) l') with (map (fun s => sv_clock s 1%nat) l); [done|].
    clear -F. induction F as [|s s' l l' (_ & _ & _ & Q & _) _ IH]; [done|]. cbn [map]. by rewrite IH, Q. }
  rewrite <- Y. split; [done|]. cbn [cs_exp cs_fwd cs_conns]. split.
  { rewrite insert_length. clear -LN F. induction F as [|s s' l l' (C & _) _ IH]; [done|]. inversion LN; subst. constructor; [by rewrite <- C|by apply IH]. }
  split; [eapply perm_insert; [done|done|by rewrite P1]|]. split; [eapply perm_insert; [done|done|by rewrite P2]|].
  intros j kj H. destruct (decide (i = j)) as [<-|N].
  - rewrite list_lookup_insert in H by (by eapply lookup_lt_Some). by injection H as <-.
  - rewrite list_lookup_insert_ne in H by done. apply (conn_ok_reread ts t l l' j kj i); [by apply O|done|done|congruence].
Qed.

Definition clk3 (t0 t1 t2 : N) : nat -> N := fun j => match j with O => t0 | S O => t1 | _ => t2 end.

Lemma clients_step ts l x x' i t :
  Forall (Forall single) ins -> clients_ok ts l x -> cstep en (i, t) x = Some x' ->
  exists l', begins l l' /\ clients_ok (ts ++ [t]) l' x'.
Proof.
  intros SI OK H. unfold cstep in H. cbn [fst snd] in H.
  destruct (cs_conns x !! i) as [k|] eqn:K; [|done].
  assert (BR : begins l l) by (exists []; by rewrite app_nil_r).
  assert (BA : forall s, begins l (l ++ [s])) by (intros s; eexists; by rewrite map_app).
  assert (IT : In t (ts ++ [t])) by (apply in_or_app; right; by left).
  pose proof OK as (S & T & D & LN & PE & PF & O). specialize (O i k K).
  assert (SQ : forall q r, nth i ins [] = asked i l ++ q :: r -> single q).
  { intros q r E. assert (X : Forall single (nth i ins [])).
    { destruct (nth_in_or_default i ins []) as [X| ->]; [|constructor]. rewrite List.Forall_forall in SI. by apply SI. }
    rewrite E in X. apply List.Forall_app in X as [_ X]. by inversion X. }
  destruct (serial en l e0) as [e rs0] eqn:SE. cbn [fst] in *.
  assert (EE : e = Effects (cs_db x) (ef_exp e) (ef_fwd e)) by (rewrite <- D; by destruct e).
  (* appending a request that changes nothing *)
  assert (AP : forall s q rest r pc out, sv_conn s = i -> sv_req s = q -> single q -> (forall j, In (sv_clock s j) (ts ++ [t])) -> sv_clock s 1%nat = t ->
     serve_request en (sv_clock s) alone q e = (e, r) -> to_send_exp k = [] -> to_send_fwd k = [] ->
     answered i rs0 = map inl out -> nth i ins [] = asked i l ++ q :: rest ->
     match pc with KWrite f => r = inl f | KEnd h => r = inr h | _ => False end ->
     exists l', begins l l' /\ clients_ok (ts ++ [t]) l' (Clients (cs_db x) (cs_exp x) (cs_fwd x) (<[i := Client rest pc out]> (cs_conns x)))).
  { intros s q rest r pc out C Q Sg J C1 V Z1 Z2 R I M. exists (l ++ [s]). split; [apply BA|].
    apply (ok_append ts t l x i k (Client rest pc out) s e (cs_db x) [] [] r); try done; try congruence.
    - by rewrite Q.
    - by rewrite SE.
    - rewrite !app_nil_r, <- EE, Q. done.
    - unfold to_send_exp. destruct pc; done.
    - unfold to_send_fwd. destruct pc; done.
    - unfold conn_ok. rewrite serial_app, SE. cbn [serial]. rewrite Q, V. cbn [snd].
      rewrite asked_app, asked_one, answered_app, answered_one, R. cbn [fst snd]. rewrite C, Nat.eqb_refl, Q, I.
      rewrite <- app_assoc. destruct pc; subst; done. }
  destruct k as [rest pc out]. unfold conn_step in H.
  destruct pc as [|q cs rs|q cs rs es fs o|ss|f|h].
  - (* a request is read *)
    destruct rest as [|q rest]; [done|]. cbn [conn_ok] in O. rewrite SE in O. cbn [snd] in O. destruct O as [O1 O2].
    pose proof (SQ q rest O2) as Sg.
    destruct (classic_sync q) as [(s & ->)|NS].
    { injection H as <-. apply (AP (Served i (QSyncsnapshot s) (fun _ => t)) (QSyncsnapshot s) rest (inr (HSnapshot s)) (KEnd (HSnapshot s)) out); done. }
    assert (H' : match plan_of t q with
      | AErr y => Some (Client rest (KWrite (error_reply en q y)) out, cs_db x, cs_exp x, cs_fwd x)
      | APanic => Some (Client rest (KEnd HPanic) out, cs_db x, cs_exp x, cs_fwd x)
      | AOk PFlush => Some (Client rest (KFlush all_slots) out, cs_db x, cs_exp x, cs_fwd x)
      | AOk (PCmds cs) => Some (Client rest (KRun q cs []) out, cs_db x, cs_exp x, cs_fwd x)
      end = match conn_step en t (Client (q :: rest) KIdle out) (cs_db x) (cs_exp x) (cs_fwd x) with y => y end).
    { unfold conn_step. destruct q; first [exfalso; by eapply NS|reflexivity]. }
    unfold conn_step in H'. rewrite <- H' in H. clear H'.
    pose proof (Sg t) as St. destruct (plan_of t q) as [[cs|]|y|] eqn:P; [|done| |]; injection H as <-.
    + exists l. split; [done|]. apply (ok_keep ts t l x i (Client (q :: rest) KIdle out)); try done.
      unfold conn_ok. rewrite SE. cbn [snd]. split; [done|]. split; [done|]. split; [done|]. by exists t.
    + apply (AP (Served i q (fun _ => t)) q rest (inl (error_reply en q y)) (KWrite (error_reply en q y)) out); try done.
      by apply serve_plan_err.
    + apply (AP (Served i q (fun _ => t)) q rest (inr HPanic) (KEnd HPanic) out); try done.
      by apply serve_plan_panic.
  - destruct cs as [|c cs].
    + destruct rs as [|r rs].
      * (* no command: the answer *)
        cbn [conn_ok] in O. rewrite SE in O. cbn [snd] in O. destruct O as (O1 & O2 & NS & t0 & T0 & P).
        pose proof (SQ q rest O2) as Sg. injection H as <-.
        pose proof (serve_plan_none en (clk3 t0 t t) q e NS P) as V. cbn [clk3] in V. unfold finish_reply in V.
        assert (J : forall j, In (clk3 t0 t t j) (ts ++ [t])).
        { intros [|[|j]]; try done. apply in_or_app. by left. }
        destruct (answer en t q []) as [f|y|].
        -- apply (AP (Served i q (clk3 t0 t t)) q rest (inl f) (KWrite f) out); done.
        -- apply (AP (Served i q (clk3 t0 t t)) q rest (inl (error_reply en q y)) (KWrite (error_reply en q y)) out); done.
        -- apply (AP (Served i q (clk3 t0 t t)) q rest (inr HPanic) (KEnd HPanic) out); done.
      * (* the answer after the command *)
        cbn [conn_ok] in O. destruct O as (_ & -> & X & I). injection H as <-.
        destruct X as (la & lb & s & c & -> & C & Q & NB & NS & P & W & R).
        set (s' := Served i q (clk3 (sv_clock s 0%nat) (sv_clock s 1%nat) t)).
        assert (F : Forall2 (reread i) (la ++ s :: lb) (la ++ s' :: lb)).
        { apply Forall2_app; [apply reread_refl|]. constructor; [|apply reread_refl]. repeat split; done. }
        exists (la ++ s' :: lb). split.
        { exists []. rewrite app_nil_r, !map_app. cbn [map]. subst s'. cbn [sv_conn sv_req]. by rewrite C, Q. }
        destruct T as [T1 T2].
        apply (ok_reread ts t (la ++ s :: lb) (la ++ s' :: lb) x i _ _ OK K F); try by destruct (answer en t q [r]).
        -- apply List.Forall_app in T1 as [TA TB]. inversion TB as [|? ? TS TB']; subst.
           apply List.Forall_app. split; [|constructor].
           ++ eapply List.Forall_impl; [|exact TA]. intros u U j. apply in_or_app. left. apply U.
           ++ intros [|[|j]]; cbn; [| |done]; apply in_or_app; left; apply TS.
           ++ eapply List.Forall_impl; [|exact TB']. intros u U j. apply in_or_app. left. apply U.
        -- assert (A : asked i (la ++ s' :: lb) = asked i (la ++ s :: lb)) by (symmetry; by eapply reread_asked).
           assert (RR : answered i (snd (serial en (la ++ s' :: lb) e0)) = map inl out ++ [finish_reply en t q [r]]).
           { rewrite serial_app. destruct (serial en la e0) as [ea ra]. cbn [fst snd] in *. cbn [serial].
             subst s'. cbn [sv_clock sv_req sv_conn]. rewrite (serve_plan_one _ _ _ c) by done. cbn [clk3].
             destruct (db_exec (e_ho en) (sv_clock s 1%nat) c (ef_db ea)) as [b' o'] eqn:DE. cbn [snd] in W. rewrite W. cbn [finish_one].
             pose proof (answered_none en i lb (Effects b' (ef_exp ea ++ wo_exp o') (ef_fwd ea ++ wo_fwd o')) NB) as AN.
             destruct (serial en lb _) as [e2 r2]. cbn [snd] in *. rewrite answered_app, R. f_equal.
             change ((i, finish_reply en t q [r]) :: r2) with ([(i, finish_reply en t q [r])] ++ r2).
             rewrite answered_app, answered_one, AN. cbn [fst snd]. by rewrite Nat.eqb_refl. }
           unfold conn_ok. rewrite A, RR. unfold finish_reply. by destruct (answer en t q [r]).
    + (* a command is executed *)
      destruct rs as [|r rs]; [|cbn [conn_ok] in O; by destruct O].
      cbn [conn_ok] in O. rewrite SE in O. cbn [snd] in O. destruct O as (O1 & O2 & NS & t0 & T0 & P).
      pose proof (SQ q rest O2) as Sg. pose proof (Sg t0) as SL. rewrite P in SL. destruct cs as [|? ?]; [|cbn in SL; lia].
      destruct (db_exec (e_ho en) t c (cs_db x)) as [b' o] eqn:DE. injection H as <-.
      assert (J : forall j, In (clk3 t0 t t j) (ts ++ [t])).
      { intros [|[|j]]; try done. apply in_or_app. by left. }
      set (s := Served i q (clk3 t0 t t)). exists (l ++ [s]). split; [apply BA|].
      assert (V : serve_request en (clk3 t0 t t) alone q e =
        (Effects b' (ef_exp e ++ wo_exp o) (ef_fwd e ++ wo_fwd o), finish_one en t q (wo_res o))).
      { rewrite (serve_plan_one _ _ _ c) by done. cbn [clk3]. rewrite D, DE. done. }
      apply (ok_append ts t l x i _ _ s e b' (wo_exp o) (wo_fwd o) (finish_one en t q (wo_res o)) OK K); try done.
      { by rewrite SE. }
      unfold conn_ok. split; [done|]. split; [done|]. split.
      { exists l, [], s, c. rewrite SE. cbn [fst snd]. subst s. cbn [sv_clock sv_conn sv_req clk3]. rewrite D, DE. done. }
      rewrite asked_app, asked_one. subst s. cbn [sv_conn sv_req]. rewrite Nat.eqb_refl, O2, <- app_assoc. done.
  - cbn [conn_ok] in O. destruct O as (-> & -> & X & I).
    destruct es as [|m es].
    + destruct fs as [|m fs].
      * (* back in apply, or an error *)
        injection H as <-. exists l. split; [done|].
        apply (ok_keep ts t l x i (Client rest (KSend q [] [] [] [] o) out)); try done; try by destruct o.
        unfold conn_ok. destruct o as [r|y|]; cbn [app].
        -- by repeat split.
        -- destruct X as (la & lb & s & c & E & C & Q & NB & NS & P & W & R).
           split; [|done]. subst l. rewrite serial_app. destruct (serial en la e0) as [ea ra]. cbn [fst snd] in *. cbn [serial].
           rewrite Q, (serve_plan_one _ _ _ c) by done.
           destruct (db_exec (e_ho en) (sv_clock s 1%nat) c (ef_db ea)) as [b' o']. cbn [snd] in W. rewrite W. cbn [finish_one].
           pose proof (answered_none en i lb (Effects b' (ef_exp ea ++ wo_exp o') (ef_fwd ea ++ wo_fwd o')) NB) as AN.
           destruct (serial en lb _) as [e2 r2]. cbn [snd] in *. rewrite answered_app, R. f_equal.
           change (?a :: r2) with ([a] ++ r2). rewrite answered_app, answered_one, AN. cbn [fst snd]. by rewrite C, Nat.eqb_refl.
        -- destruct X as (la & lb & s & c & E & C & Q & NB & NS & P & W & R).
           split; [|done]. subst l. rewrite serial_app. destruct (serial en la e0) as [ea ra]. cbn [fst snd] in *. cbn [serial].
           rewrite Q, (serve_plan_one _ _ _ c) by done.
           destruct (db_exec (e_ho en) (sv_clock s 1%nat) c (ef_db ea)) as [b' o']. cbn [snd] in W. rewrite W. cbn [finish_one].
           pose proof (answered_none en i lb (Effects b' (ef_exp ea ++ wo_exp o') (ef_fwd ea ++ wo_fwd o')) NB) as AN.
           destruct (serial en lb _) as [e2 r2]. cbn [snd] in *. rewrite answered_app, R. f_equal.
           change (?a :: r2) with ([a] ++ r2). rewrite answered_app, answered_one, AN. cbn [fst snd]. by rewrite C, Nat.eqb_refl.
      * injection H as <-. exists l. split; [done|].
        apply (ok_keep ts t l x i (Client rest (KSend q [] [] [] (m :: fs) o) out)); try done.
        unfold to_send_fwd. cbn [k_pc]. by rewrite <- app_assoc.
    + injection H as <-. exists l. split; [done|].
      apply (ok_keep ts t l x i (Client rest (KSend q [] [] (m :: es) fs o) out)); try done.
      unfold to_send_exp. cbn [k_pc]. by rewrite <- app_assoc.
  - done.
  - injection H as <-. cbn [conn_ok] in O. rewrite SE in O. cbn [snd] in O. destruct O as [O1 O2]. exists l. split; [done|].
    apply (ok_keep ts t l x i (Client rest (KWrite f) out)); try done.
    unfold conn_ok. rewrite SE. cbn [snd]. rewrite map_app. by split.
  - done.
Qed.

Lemma begins_trans l1 l2 l3 : begins l1 l2 -> begins l2 l3 -> begins l1 l3.
Proof. intros (r & E) (r' & E'). exists (r ++ r'). by rewrite E', E, app_assoc. Qed.

Lemma clients_steps evs : forall ts l x x',
  Forall (Forall single) ins -> clients_ok ts l x -> csteps en evs x = Some x' ->
  exists l', begins l l' /\ clients_ok (ts ++ map snd evs) l' x'.
Proof.
  induction evs as [|[i t] evs IH]; intros ts l x x' SI OK H; cbn [csteps] in H.
  - injection H as <-. exists l. split; [exists []; by rewrite app_nil_r|]. cbn. by rewrite app_nil_r.
  - destruct (cstep en (i, t) x) as [y|] eqn:S; [|done].
    destruct (clients_step ts l x y i t SI OK S) as (l1 & B1 & OK1).
    destruct (IH _ _ _ _ SI OK1 H) as (l2 & B2 & OK2). exists l2. split; [by eapply begins_trans|].
    rewrite <- app_assoc in OK2. exact OK2.
Qed.

Lemma clients_start : clients_ok [] [] (cs_start b0 ins).
Proof.
  split; [constructor|]. split; [split; constructor|]. split; [done|]. split; [constructor|].
  assert (Z : forall {A} (f : client -> list A), (forall l, f (Client l KIdle []) = []) -> concat (map f (map (fun l => Client l KIdle []) ins)) = []).
  { intros A f F. induction ins as [|a r IH]; [done|]. cbn [map concat]. by rewrite F, IH. }
  cbn [cs_start cs_exp cs_fwd cs_conns serial fst ef_exp ef_fwd]. rewrite !Z by done. split; [done|]. split; [done|].
  intros i k K. rewrite list_lookup_fmap in K. destruct (ins !! i) as [q|] eqn:E; [|done]. injection K as <-. cbn.
  split; [done|]. by rewrite (nth_lookup_Some ins i [] q E).
Qed.

Lemma ok_explains ts l x : clients_ok ts l x -> explains en b0 ins l x.
Proof.
  intros (_ & _ & D & LN & _ & _ & O). unfold explains. destruct (serial en l e0) as [e rs] eqn:SE. cbn [fst] in D. split; [done|]. split; [done|].
  intros i k K. specialize (O i k K). destruct k as [rest pc out]. cbn [k_out k_pc k_in].
  unfold conn_ok in O. rewrite SE in O. cbn [snd] in O.
  assert (X : forall q o, executed i q o out l -> exists r, answered i rs = map inl out ++ [r]).
  { intros q o (la & lb & s & c & E & C & Q & NB & NS & P & W & R). subst l. rewrite serial_app in SE.
    destruct (serial en la e0) as [ea ra]. cbn [fst snd] in *. cbn [serial] in SE.
    destruct (serve_request en (sv_clock s) alone (sv_req s) ea) as [eb r].
    pose proof (answered_none en i lb eb NB) as AN. destruct (serial en lb eb) as [e2 r2]. injection SE as <- <-. exists r.
    rewrite answered_app, R. f_equal. cbn [snd] in AN. change ((sv_conn s, r) :: r2) with ([(sv_conn s, r)] ++ r2).
    rewrite answered_app, answered_one, AN. cbn [fst snd]. by rewrite C, Nat.eqb_refl. }
  destruct pc as [|q cs rs'|q cs rs' es fs o|ss|f|h].
  - destruct O as [O1 O2]. split; [by exists rest|]. split; [|done]. exists []. rewrite app_nil_r. split; [done|cbn; lia].
  - destruct rs' as [|r rs'].
    + destruct O as (O1 & O2 & _). split; [by exists (q :: rest)|]. split; [|done]. exists []. rewrite app_nil_r. split; [done|cbn; lia].
    + destruct O as (_ & _ & O1 & O2). split; [by exists rest|]. split; [|done]. destruct (X _ _ O1) as (r' & E). exists [r']. split; [done|cbn; lia].
  - destruct O as (_ & _ & O1 & O2). split; [by exists rest|]. split; [|done]. destruct (X _ _ O1) as (r' & E). exists [r']. split; [done|cbn; lia].
  - done.
  - destruct O as [O1 O2]. split; [by exists rest|]. split; [|done]. exists [inl f]. split; [done|cbn; lia].
  - destruct O as [O1 O2]. split; [by exists rest|]. split; [|done]. exists [inr h]. split; [done|cbn; lia].
Qed.
End invariant.

(** * The commands in the order of their execution *)
Lemma run_app ho h h' b :
  db_run ho (h ++ h') b = let '(b1, r1) := db_run ho h b in let '(b2, r2) := db_run ho h' b1 in (b2, r1 ++ r2).
Proof.
  revert b; induction h as [|[t c] h IH]; intros b; cbn [app db_run].
  - by destruct (db_run ho h' b).
  - destruct (db_cmd ho t c b) as [b1 r]. rewrite IH. destruct (db_run ho h b1) as [b2 r1]. by destruct (db_run ho h' b2).
Qed.
Lemma forwarded_app ho h h' b :
  db_forwarded ho (h ++ h') b = db_forwarded ho h b ++ db_forwarded ho h' (fst (db_run ho h b)).
Proof.
  revert b; induction h as [|[t c] h IH]; intros b; [done|]. destruct c as [w|r]; cbn [app db_forwarded db_run db_cmd].
  - destruct (db_write t w b) as [b1 o]. rewrite IH. destruct (db_run ho h b1) as [b2 rs]. by rewrite app_assoc.
  - rewrite IH. destruct (db_read ho t r b) as [b1 o]. cbn [fst]. by destruct (db_run ho h b1) as [b2 rs].
Qed.

Definition no_flush (q : request) : Prop := forall sync, q <> QFlushall sync.
Definition no_flush_client (k : client) : Prop :=
  Forall no_flush (k_in k) /\ match k_pc k with KFlush _ => False | _ => True end.
Lemma plan_flush t q : plan_of t q = AOk PFlush -> ~ no_flush q.
Proof.
  intros P N. destruct q; cbn in P; try done; try (by eapply N);
    repeat (match type of P with
            | context [match ?a with _ => _ end] => destruct a; cbn in P
            | context [abind ?a _] => destruct a; cbn in P
            end; try done).
Qed.

Definition hist_ok (ho : horder) (b0 : db) (h : list (N * cmd)) (x : clients) : Prop :=
  cs_db x = fst (db_run ho h b0) /\
  Permutation (db_forwarded ho h b0) (cs_fwd x ++ concat (map unsent (cs_conns x))) /\
  (length (cs_conns x) = 1%nat -> db_forwarded ho h b0 = cs_fwd x ++ concat (map unsent (cs_conns x))) /\
  (Forall unhurt (cs_conns x) -> Forall (fun r => r <> OPanic) (snd (db_run ho h b0))) /\
  Forall no_flush_client (cs_conns x).

Lemma hist_keep ho b0 h x i k k' xs fw :
  hist_ok ho b0 h x -> cs_conns x !! i = Some k -> cs_fwd x ++ unsent k = fw ++ unsent k' ->
  (unhurt k' -> unhurt k) -> no_flush_client k' ->
  hist_ok ho b0 h (Clients (cs_db x) xs fw (<[i := k']> (cs_conns x))).
Proof.
  intros (D & P & Q & U & F) K E UU NF. split; [done|]. cbn [cs_fwd cs_conns]. split.
  { eapply perm_insert; [done|done|by rewrite E]. }
  split; [|split].
  - rewrite insert_length. intros L. rewrite Q by done. destruct (cs_conns x) as [|k1 [|? ?]]; try done.
    destruct i; [|done]. injection K as ->. cbn. by rewrite !app_nil_r.
  - intros V. apply U. apply List.Forall_forall. intros kj J. apply elem_of_list_In, elem_of_list_lookup in J as (j & J).
    rewrite List.Forall_forall in V. destruct (decide (i = j)) as [<-|N].
    + rewrite K in J. injection J as <-. apply UU, V. apply elem_of_list_In, elem_of_list_lookup. exists i.
      apply list_lookup_insert. by eapply lookup_lt_Some.
    + apply V. apply elem_of_list_In, elem_of_list_lookup. exists j. by rewrite list_lookup_insert_ne.
  - by apply Forall_insert.
Qed.

Lemma hist_step en b0 h x x' i t : hist_ok (e_ho en) b0 h x -> cstep en (i, t) x = Some x' ->
  exists h', hist_ok (e_ho en) b0 (h ++ h') x'.
Proof.
  intros OK H. unfold cstep in H. cbn [fst snd] in H.
  destruct (cs_conns x !! i) as [k|] eqn:K; [|done].
  pose proof OK as (D & P & Q & U & F).
  assert (NK : no_flush_client k).
  { rewrite List.Forall_forall in F. apply F. apply elem_of_list_In, elem_of_list_lookup. by exists i. }
  destruct k as [rest pc out]. destruct NK as [N1 N2]. cbn [k_in k_pc] in N1, N2.
  assert (KP : forall ins' pc' out' xs fw, cs_fwd x ++ unsent (Client rest pc out) = fw ++ unsent (Client ins' pc' out') ->
    (unhurt (Client ins' pc' out') -> unhurt (Client rest pc out)) -> Forall no_flush ins' -> match pc' with KFlush _ => False | _ => True end ->
    exists h', hist_ok (e_ho en) b0 (h ++ h') (Clients (cs_db x) xs fw (<[i := Client ins' pc' out']> (cs_conns x)))).
  { intros ins' pc' out' xs fw E V W W'. exists []. rewrite app_nil_r. eapply hist_keep; done. }
  unfold conn_step in H. destruct pc as [|q cs rs|q cs rs es fs o|ss|f|e].
  - destruct rest as [|q rest]; [done|]. inversion N1 as [|? ? NF N1']; subst.
    pose proof (plan_flush t q) as PF.
    destruct q; try (injection H as <-; by apply KP);
      (destruct (plan_of t _) as [[cs|]|y|]; [|exfalso; by apply PF| |]; injection H as <-; by apply KP).
  - destruct cs as [|c cs].
    + injection H as <-. destruct (answer en t q rs); by apply KP.
    + destruct (db_exec (e_ho en) t c (cs_db x)) as [b' o] eqn:DE. injection H as <-.
      exists [(t, c)].
      assert (R : db_run (e_ho en) [(t, c)] (cs_db x) = (b', [wo_res o])).
      { cbn [db_run]. destruct c as [w|r]; cbn [db_cmd db_exec] in *.
        - destruct (db_write t w (cs_db x)) as [b1 o1]. by injection DE as <- <-.
        - destruct (db_read (e_ho en) t r (cs_db x)) as [b1 o1]. by injection DE as <- <-. }
      assert (W : db_forwarded (e_ho en) [(t, c)] (cs_db x) = wo_fwd o).
      { destruct c as [w|r]; cbn [db_forwarded db_exec] in *.
        - rewrite DE. by rewrite app_nil_r.
        - destruct (db_read (e_ho en) t r (cs_db x)) as [b1 o1]. by injection DE as <- <-. }
      split; [|split; [|split; [|split]]]; cbn [cs_db cs_fwd cs_conns].
      * rewrite run_app. destruct (db_run (e_ho en) h b0) as [b1 r1]. cbn [fst] in D. subst b1. by rewrite R.
      * rewrite forwarded_app, <- D, W, P.
        transitivity (cs_fwd x ++ (wo_fwd o ++ concat (map unsent (cs_conns x)))).
        { rewrite <- app_assoc. apply Permutation_app_head, Permutation_app_comm. }
        apply Permutation_app_head. rewrite <- (app_nil_l (concat (map unsent (<[i := _]> _)))).
        eapply perm_insert; [exact K|reflexivity|]. cbn [unsent k_pc]. by rewrite app_nil_r.
      * rewrite insert_length. intros L. rewrite forwarded_app, <- D, W, Q by done.
        destruct (cs_conns x) as [|k1 [|? ?]]; try done. destruct i; [|done]. injection K as ->. cbn. by rewrite !app_nil_r.
      * intros V. rewrite run_app. destruct (db_run (e_ho en) h b0) as [b1 r1]. cbn [fst snd] in *. subst b1. rewrite R. cbn [snd].
        rewrite List.Forall_forall in V. apply List.Forall_app. split.
        -- apply U. apply List.Forall_forall. intros kj J. apply elem_of_list_In, elem_of_list_lookup in J as (j & J).
           destruct (decide (i = j)) as [<-|N].
           ++ rewrite K in J. by injection J as <-.
           ++ apply V. apply elem_of_list_In, elem_of_list_lookup. exists j. by rewrite list_lookup_insert_ne.
        -- constructor; [|done]. intros E. specialize (V (Client rest (KSend q cs rs (wo_exp o) (wo_fwd o) (wo_res o)) out)).
           rewrite E in V. apply V. apply elem_of_list_In, elem_of_list_lookup. exists i.
           apply list_lookup_insert. by eapply lookup_lt_Some.
      * by apply Forall_insert.
  - destruct es as [|m es]; [destruct fs as [|m fs]|].
    + injection H as <-. by destruct o; apply KP.
    + injection H as <-. apply KP; try done. cbn [unsent k_pc]. by rewrite <- app_assoc.
    + injection H as <-. by apply KP.
  - done.
  - injection H as <-. by apply KP.
  - done.
Qed.

Lemma hist_steps en b0 evs : forall h x x', hist_ok (e_ho en) b0 h x -> csteps en evs x = Some x' ->
  exists h', hist_ok (e_ho en) b0 (h ++ h') x'.
Proof.
  induction evs as [|[i t] evs IH]; intros h x x' OK H; cbn [csteps] in H.
  - injection H as <-. exists []. by rewrite app_nil_r.
  - destruct (cstep en (i, t) x) as [y|] eqn:S; [|done]. destruct (hist_step en b0 h x y i t OK S) as (h1 & OK1).
    destruct (IH _ _ _ OK1 H) as (h2 & OK2). exists (h1 ++ h2). by rewrite app_assoc.
Qed.

Lemma hist_start ho b0 ins : Forall (Forall no_flush) ins -> hist_ok ho b0 [] (cs_start b0 ins).
Proof.
  intros F. assert (Z : concat (map unsent (map (fun l => Client l KIdle []) ins)) = []).
  { clear F. induction ins as [|a r IH]; [done|]. cbn [map concat]. by rewrite IH. }
  split; [done|]. cbn [cs_start cs_fwd cs_conns db_forwarded]. rewrite Z. split; [done|]. split; [done|]. split; [constructor|].
  clear Z. induction F; cbn [map]; [constructor|]. by constructor.
Qed.
