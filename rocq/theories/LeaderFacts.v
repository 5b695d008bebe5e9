(** Executions of a whole server as executions of its connections with one more client. *)
From Verif Require Export SpecLeader.
From Verif Require Import ExpireFacts ClientsFacts FlushFacts.

Definition msg_fine (m : exp_msg) : Prop := match m with XUpdate s u => s = get_slot (eu_key u) | _ => False end.
Definition entry_fine (e : entry) : Prop := en_slot e = get_slot (en_key e) /\ (0 < en_at e)%N.
Definition sends_fine (k : client) : Prop := match k_pc k with KSend _ _ _ es _ _ => Forall msg_fine es | _ => True end.
Definition purge_fine (t : N) (pc : ppc) : Prop :=
  match pc with PLoop now => (now <= t)%N | PEntry now e => entry_fine e /\ (en_at e <= now <= t)%N | _ => True end.
Record leader_fine (t : N) (x : leader) : Prop := LeaderFine {
  lf_chan : Forall msg_fine (cs_exp (ld_cl x));
  lf_conns : Forall sends_fine (cs_conns (ld_cl x));
  lf_queue : Forall entry_fine (ld_queue x);
  lf_scan : match ld_scan x with Some es => Forall entry_fine es | None => True end;
  lf_purge : purge_fine t (ld_purge x) }.

Lemma leader_fine_start b ins : leader_fine 0 (leader_start b ins).
Proof. split; cbn; try done. apply List.Forall_map, List.Forall_forall. done. Qed.
Lemma leader_fine_later t t' x : (t <= t')%N -> leader_fine t x -> leader_fine t' x.
Proof. intros L [A B C D E]. split; try done. destruct (ld_purge x); cbn in *; try done; lia || (destruct E; split; [done|lia]). Qed.

Lemma exec_fine ho now c b : Forall msg_fine (wo_exp (snd (db_exec ho now c b))).
Proof.
  destruct c as [w|r]; cbn [db_exec].
  - unfold db_write. destruct (slot_write (get_slot (wkey w)) now w (b (get_slot (wkey w)))) as [d o] eqn:E. cbn [snd].
    unfold slot_write in E. destruct (next_id (b (get_slot (wkey w)))) as [id d1]. destruct (wapply now w d1) as [[d2 r] u] eqn:W.
    destruct r; injection E as <- <-; cbn [wo_exp]; try constructor.
    destruct u as [u|]; [|constructor]. cbn [exp_notify]. destruct (eu_before u =? eu_new u)%N; [constructor|].
    pose proof (wapply_announces _ _ _ _ _ _ W) as A. destruct A as [K _]. repeat constructor. cbn. by rewrite K.
  - destruct (db_read ho now r b) as [b' o]. constructor.
Qed.
Lemma q_insert_fine e q : entry_fine e -> Forall entry_fine q -> Forall entry_fine (q_insert e q).
Proof.
  intros E. induction 1 as [|x q X Q IH]; cbn [q_insert]; [by constructor|].
  destruct (entry_cmp e x); [by constructor|by repeat (constructor; [done|])|by constructor].
Qed.
Lemma q_remove_fine e q : Forall entry_fine q -> Forall entry_fine (q_remove e q).
Proof. intros Q. unfold q_remove. apply List.Forall_forall. intros x X. apply filter_In in X as [X _]. rewrite List.Forall_forall in Q. by apply Q. Qed.
Lemma recv_fine m q : msg_fine m -> Forall entry_fine q -> Forall entry_fine (fst (recv m q)).
Proof.
  intros M Q. destruct m as [s|s u|es]; cbn in M; try done. subst s. cbn [recv].
  destruct (0 <? eu_new u)%N eqn:N; destruct (0 <? eu_before u)%N; cbn [fst]; try done; try (by apply q_remove_fine); try apply q_remove_fine;
    apply q_insert_fine; try done; split; cbn; [done|lia|done|lia].
Qed.

(** ** A visit of the background tasks is a GET *)
Lemma visit_get t e b : entry_fine e -> (en_at e <= t)%N ->
  forall ho, db_set (en_slot e) (purge_entry t e (b (en_slot e))) b = fst (db_read ho t (RGet (en_key e)) b).
Proof.
  intros [S P] L ho. unfold db_read, slot_read. cbn [rkey rapply]. unfold get_apply, purge_entry. rewrite S.
  destruct (dict_get_case t (en_key e) (b (get_slot (en_key e)))) as [v E A V|V]; [|done]. cbn [fst].
  replace (v_exp (touch t v) =? en_at e)%N with false; [done|]. symmetry. apply N.eqb_neq. cbn [v_exp touch]. unfold alive in A.
  apply orb_true_iff in A as [A|A]; [apply N.eqb_eq in A|apply N.ltb_lt in A]; lia.
Qed.
Lemma scan_get t e b : entry_fine e -> forall ho, db_set (en_slot e) (fst (scan_entry t e (b (en_slot e)))) b = fst (db_read ho t (RGet (en_key e)) b).
Proof.
  intros [S P] ho. unfold db_read, slot_read. cbn [rkey rapply]. unfold get_apply, scan_entry. rewrite S.
  by destruct (dict_get t (en_key e) (b (get_slot (en_key e)))) as [d1 o].
Qed.

(** ** Channels are only written to *)
Lemma conn_step_channels en now k b xs fw k' b' xs' fw' p pf : conn_step en now k b xs fw = Some (k', b', xs', fw') ->
  conn_step en now k b (p ++ xs) (pf ++ fw) = Some (k', b', p ++ xs', pf ++ fw').
Proof.
  intros H. destruct k as [ins pc out]. cbn [conn_step] in *. destruct pc as [|q [|c cs] rs|q cs rs [|m es] [|f fs] o|[|s ss]|f|h]; try done.
  all: repeat match goal with
         | H : match ?a with _ => _ end = Some _ |- _ => destruct a eqn:?; try done
         | H : (let '(_, _) := ?a in _) = Some _ |- _ => destruct a eqn:?
         end; try (by injection H as <- <- <- <-); injection H as <- <- <- <-; by rewrite ?app_assoc.
Qed.

(** ** The extra client *)
Definition embed (p : list exp_msg) (pf : list fwd_msg) (qs : list request) (out : list frame) (x : leader) : clients :=
  let c := ld_cl x in Clients (cs_db c) (p ++ cs_exp c) (pf ++ cs_fwd c) (cs_conns c ++ [Client qs KIdle out]).

Lemma get_round en t k b xs fw ks rest out : exists f,
  csteps en (repeat (length ks, t) 5) (Clients b xs fw (ks ++ [Client (QGet k :: rest) KIdle out])) =
  Some (Clients (fst (db_read (e_ho en) t (RGet k) b)) xs fw (ks ++ [Client rest KIdle (out ++ [f])])).
Proof.
  assert (L : forall c, (ks ++ [c]) !! length ks = Some c) by (intros c; rewrite lookup_app_r by lia; by rewrite Nat.sub_diag).
  assert (I : forall c c', <[length ks := c']> (ks ++ [c]) = ks ++ [c']) by (intros c c'; rewrite insert_app_r_alt by lia; by rewrite Nat.sub_diag).
  unfold db_read. cbn [rkey]. unfold slot_read. cbn [rapply]. unfold get_apply.
  destruct (dict_get t k (b (get_slot k))) as [d1 o] eqn:E. cbn [fst].
  set (x := match o with Some v => v_data v | None => DNull end).
  exists (match get_frame en x with AOk f => f | AErr e => error_reply en (QGet k) e | APanic => FNull end).
  cbn [repeat csteps]. unfold cstep at 1. cbn [fst snd cs_conns]. rewrite L. cbn [conn_step plan_of cs_db cs_exp cs_fwd]. rewrite I.
  unfold cstep at 1. cbn [fst snd cs_conns]. rewrite L. cbn [conn_step cs_db cs_exp cs_fwd db_exec]. unfold db_read. cbn [rkey]. unfold slot_read. cbn [rapply]. unfold get_apply.
  rewrite E. cbn [wo_exp wo_fwd wo_res]. rewrite I.
  unfold cstep at 1. cbn [fst snd cs_conns]. rewrite L. cbn [conn_step cs_db cs_exp cs_fwd]. rewrite I.
  unfold cstep at 1. cbn [fst snd cs_conns]. rewrite L. cbn [conn_step cs_db cs_exp cs_fwd app answer]. rewrite I. fold x.
  assert (G : match get_frame en x with AOk f => KWrite f | AErr e => KWrite (error_reply en (QGet k) e) | APanic => KEnd HPanic end =
    KWrite (match get_frame en x with AOk f => f | AErr e => error_reply en (QGet k) e | APanic => FNull end)) by (destruct x as [[]| | | |]; done).
  rewrite G. unfold cstep at 1. cbn [fst snd cs_conns]. rewrite L. cbn [conn_step cs_db cs_exp cs_fwd]. by rewrite I.
Qed.

Lemma cstep_embed en i t cl cl' p pf c : cstep en (i, t) cl = Some cl' ->
  cstep en (i, t) (Clients (cs_db cl) (p ++ cs_exp cl) (pf ++ cs_fwd cl) (cs_conns cl ++ [c])) =
  Some (Clients (cs_db cl') (p ++ cs_exp cl') (pf ++ cs_fwd cl') (cs_conns cl' ++ [c])).
Proof.
  unfold cstep. cbn [fst snd cs_conns cs_db cs_exp cs_fwd]. intros H. destruct (cs_conns cl !! i) as [k|] eqn:K; [|done].
  rewrite (lookup_app_l_Some _ _ _ _ K). destruct (conn_step en t k (cs_db cl) (cs_exp cl) (cs_fwd cl)) as [[[[k' b] xs] fw]|] eqn:E; [|done].
  injection H as <-. rewrite (conn_step_channels _ _ _ _ _ _ _ _ _ _ p pf E). cbn [cs_db cs_exp cs_fwd cs_conns].
  rewrite insert_app_l; [done|]. by apply lookup_lt_Some in K.
Qed.
Lemma conn_step_fine en now k b xs fw k' b' xs' fw' : conn_step en now k b xs fw = Some (k', b', xs', fw') ->
  sends_fine k -> Forall msg_fine xs -> sends_fine k' /\ Forall msg_fine xs'.
Proof.
  intros H S X. destruct k as [ins pc out]. cbn [conn_step] in H. destruct pc as [|q [|c cs] rs|q cs rs [|m es] [|f fs] o|[|s ss]|f|h]; try done.
  - destruct ins as [|q ins]; [done|].
    assert (forall pc, match pc with KSend _ _ _ _ _ _ => False | _ => True end -> sends_fine (Client ins pc out)) as G by (by intros []).
    destruct q; try (injection H as <- <- <- <-; split; [by apply G|done]).
    all: destruct (plan_of now _) as [[cs|]| |]; injection H as <- <- <- <-; (split; [by apply G|done]).
  - destruct (answer en now q rs); injection H as <- <- <- <-; by split.
  - pose proof (exec_fine (e_ho en) now c b) as F. destruct (db_exec (e_ho en) now c b) as [b1 o]. injection H as <- <- <- <-. by split.
  - destruct o; injection H as <- <- <- <-; by split.
  - injection H as <- <- <- <-. by split.
  - injection H as <- <- <- <-. inversion S; subst. split; [done|]. apply List.Forall_app. by split; [|constructor].
  - injection H as <- <- <- <-. inversion S; subst. split; [done|]. apply List.Forall_app. by split; [|constructor].
  - injection H as <- <- <- <-. by split.
  - injection H as <- <- <- <-. by split.
  - injection H as <- <- <- <-. by split.
Qed.

(** One step of the server: the keys it visits in the background, and the steps of the clients. *)
Lemma leader_step_embed en t u x x' : leader_step en (t, u) x = Some x' -> leader_fine t x ->
  leader_fine t x' /\ length (cs_conns (ld_cl x')) = length (cs_conns (ld_cl x)) /\
  exists vis evs p' pf', Forall (fun ev => snd ev = t) evs /\
    (forall i, u = LConn i -> (i < length (cs_conns (ld_cl x)))%nat) /\
    all_but (length (cs_conns (ld_cl x))) evs = conn_turns [(t, u)] /\
    forall p pf rest out, exists outs,
      csteps en evs (embed p pf (map QGet vis ++ rest) out x) = Some (embed (p ++ p') (pf ++ pf') rest (out ++ outs) x').
Proof.
  intros H F.
  assert (QUIET : cs_db (ld_cl x') = cs_db (ld_cl x) -> cs_conns (ld_cl x') = cs_conns (ld_cl x) -> conn_turns [(t, u)] = [] -> (forall i, u <> LConn i) ->
    forall p' pf', cs_exp (ld_cl x) = p' ++ cs_exp (ld_cl x') -> cs_fwd (ld_cl x) = pf' ++ cs_fwd (ld_cl x') ->
    length (cs_conns (ld_cl x')) = length (cs_conns (ld_cl x)) /\
    exists vis evs p' pf', Forall (fun ev => snd ev = t) evs /\ (forall i, u = LConn i -> (i < length (cs_conns (ld_cl x)))%nat) /\
    all_but (length (cs_conns (ld_cl x))) evs = conn_turns [(t, u)] /\
    forall p pf rest out, exists outs,
      csteps en evs (embed p pf (map QGet vis ++ rest) out x) = Some (embed (p ++ p') (pf ++ pf') rest (out ++ outs) x')).
  { intros DB CO CT NC p' pf' XS FW. split; [by rewrite CO|]. exists [], [], p', pf'. split; [done|]. split; [intros i ->; by destruct (NC i)|]. split; [done|].
    intros p pf rest out. exists []. cbn [csteps map app]. unfold embed. by rewrite DB, CO, XS, FW, !app_assoc, app_nil_r. }
  assert (VISIT : forall k, cs_db (ld_cl x') = fst (db_read (e_ho en) t (RGet k) (cs_db (ld_cl x))) -> cs_conns (ld_cl x') = cs_conns (ld_cl x) ->
    conn_turns [(t, u)] = [] -> (forall i, u <> LConn i) -> cs_exp (ld_cl x') = cs_exp (ld_cl x) -> cs_fwd (ld_cl x') = cs_fwd (ld_cl x) ->
    length (cs_conns (ld_cl x')) = length (cs_conns (ld_cl x)) /\
    exists vis evs p' pf', Forall (fun ev => snd ev = t) evs /\ (forall i, u = LConn i -> (i < length (cs_conns (ld_cl x)))%nat) /\
    all_but (length (cs_conns (ld_cl x))) evs = conn_turns [(t, u)] /\
    forall p pf rest out, exists outs,
      csteps en evs (embed p pf (map QGet vis ++ rest) out x) = Some (embed (p ++ p') (pf ++ pf') rest (out ++ outs) x')).
  { intros k DB CO CT NC XS FW. split; [by rewrite CO|]. exists [k], (repeat (length (cs_conns (ld_cl x)), t) 5), [], [].
    split; [by repeat constructor|]. split; [intros i ->; by destruct (NC i)|].
    split; [rewrite CT; cbn [repeat all_but List.filter fst]; by rewrite Nat.eqb_refl|].
    intros p pf rest out. cbn [map app]. unfold embed.
    destruct (get_round en t k (cs_db (ld_cl x)) (p ++ cs_exp (ld_cl x)) (pf ++ cs_fwd (ld_cl x)) (cs_conns (ld_cl x)) rest out) as [f E].
    exists [f]. by rewrite E, DB, CO, XS, FW, !app_nil_r. }
  destruct x as [cl q sc n nt pm pc]. destruct F as [CH CO QU SC PU]. unfold leader_step in H. cbn [ld_cl ld_queue ld_scan ld_purge snd fst] in *.
  destruct u as [i| | | | | | |]; cbn [turn_event] in H.
  - destruct (cstep en (i, t) cl) as [cl'|] eqn:E; [|done]. injection H as <-. cbn [ld_cl].
    assert (IN : (i < length (cs_conns cl))%nat) by (unfold cstep in E; cbn [fst] in E; destruct (cs_conns cl !! i) eqn:K; [by apply lookup_lt_Some in K|done]).
    split; [|split].
    + unfold cstep in E. cbn [fst snd] in E. destruct (cs_conns cl !! i) as [k|] eqn:K; [|done].
      destruct (conn_step en t k (cs_db cl) (cs_exp cl) (cs_fwd cl)) as [[[[k' b] xs] fw]|] eqn:C; [|done]. injection E as <-.
      assert (SK : sends_fine k) by (rewrite list.Forall_forall in CO; apply CO; by eapply elem_of_list_lookup_2).
      destruct (conn_step_fine _ _ _ _ _ _ _ _ _ _ C SK CH) as [S' X']. split; cbn; try done. by apply Forall_insert.
    + unfold cstep in E. cbn [fst snd] in E. destruct (cs_conns cl !! i) as [k|] eqn:K; [|done].
      destruct (conn_step en t k (cs_db cl) (cs_exp cl) (cs_fwd cl)) as [[[[k' b] xs] fw]|] eqn:C; [|done]. injection E as <-. cbn. by rewrite insert_length.
    + exists [], [(i, t)], [], []. split; [by repeat constructor|]. split; [intros j [= <-]; done|]. split.
      { cbn. replace (Nat.eqb i (length (cs_conns cl))) with false; [done|]. symmetry. apply Nat.eqb_neq. lia. }
      intros p pf rest out. exists []. cbn [csteps map app]. unfold embed. cbn [ld_cl]. rewrite (cstep_embed _ _ _ _ _ p pf _ E). by rewrite !app_nil_r.
  - destruct cl as [b xs fw ks]. cbn [task_step step] in H. destruct n as [|n]; [done|]. cbn [repeat nth_error] in H.
    destruct sc as [es|]; [done|]. cbn in H. injection H as <-. split; [by split|]. eapply QUIET; cbn; try done; by instantiate (1 := []).
  - destruct cl as [b xs fw ks]. cbn [task_step step] in H. destruct sc as [[|e es]|]; [| |done].
    + injection H as <-. split; [by split|]. eapply QUIET; cbn; try done; by instantiate (1 := []).
    + inversion SC as [|? ? E1 E2]; subst. pose proof (scan_get t e b E1 (e_ho en)) as G. destruct (scan_entry t e (b (en_slot e))) as [d' keep].
      injection H as <-. cbn [fst] in G. split; [split; cbn; try done; destruct keep; [done|by apply q_remove_fine]|].
      apply (VISIT (en_key e)); try done.
  - destruct cl as [b xs fw ks]. cbn [task_step step] in H. destruct sc as [es|]; [done|]. destruct nt; [done|]. destruct xs as [|m xs]; [done|].
    cbn [cs_exp] in CH. inversion CH as [|? ? M1 M2]; subst. pose proof (recv_fine m q M1 QU) as R. destruct (recv m q) as [q' note].
    injection H as <-. split; [by split|]. apply (QUIET eq_refl eq_refl eq_refl ltac:(done) [m] []); done.
  - destruct cl as [b xs fw ks]. cbn [task_step step] in H. destruct nt; [|done]. injection H as <-. split; [by split|]. by apply (QUIET eq_refl eq_refl eq_refl ltac:(done) [] []).
  - destruct cl as [b xs fw ks]. cbn [task_step step purge_step] in H. destruct pc as [|now|now e|next| |w].
    + injection H as <-. split; [split; cbn; try done; lia|]. by apply (QUIET eq_refl eq_refl eq_refl ltac:(done) [] []).
    + destruct sc as [es|]; [done|]. destruct q as [|e q].
      * injection H as <-. split; [by split|]. by apply (QUIET eq_refl eq_refl eq_refl ltac:(done) [] []).
      * destruct (now <? en_at e)%N eqn:N; injection H as <-.
        -- split; [by split|]. by apply (QUIET eq_refl eq_refl eq_refl ltac:(done) [] []).
        -- inversion QU as [|? ? Q1 Q2]; subst. split; [split; cbn [ld_cl ld_queue ld_scan ld_purge cs_exp cs_conns]; try done; [by apply q_remove_fine|cbn in PU |- *; split; [done|lia]]|].
           by apply (QUIET eq_refl eq_refl eq_refl ltac:(done) [] []).
    + injection H as <-. destruct PU as [E1 E2]. split; [split; cbn; try done; lia|].
      apply (VISIT (en_key e)); try done. cbn [ld_cl cs_db]. apply visit_get; [done|lia].
    + destruct (next =? 0)%N; [|destruct (t <? next)%N]; injection H as <-; (split; [by split|]); by apply (QUIET eq_refl eq_refl eq_refl ltac:(done) [] []).
    + destruct pm; [|done]. injection H as <-. split; [by split|]. by apply (QUIET eq_refl eq_refl eq_refl ltac:(done) [] []).
    + destruct pm; [|done]. injection H as <-. split; [by split|]. by apply (QUIET eq_refl eq_refl eq_refl ltac:(done) [] []).
  - destruct cl as [b xs fw ks]. cbn [task_step step] in H. destruct pc; try done. injection H as <-. split; [by split|]. by apply (QUIET eq_refl eq_refl eq_refl ltac:(done) [] []).
  - destruct cl as [b xs fw ks]. cbn [cs_fwd cs_db cs_exp cs_conns] in *. destruct fw as [|m fw]; [done|]. injection H as <-. split; [by split|].
    by apply (QUIET eq_refl eq_refl eq_refl ltac:(done) [] [m]).
Qed.
