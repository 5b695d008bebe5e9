(** Lemmas about background expiry. *)
From Verif Require Import BytesFacts CmdFacts DictFacts SimpleFacts OrderFacts BincodeFacts DbFacts.
From Verif Require Export SpecExpire.
Global Opaque all_slots.
Global Arguments q_remove : simpl never.
Global Arguments spawn : simpl never.

(** ** The queue *)

Lemma entry_cmp_eq a b : entry_cmp a b = Eq <-> a = b.
Proof.
  destruct a as [t1 s1 k1], b as [t2 s2 k2]. unfold entry_cmp. cbn.
  destruct (N.compare_spec t1 t2) as [->|H|H], (N.compare_spec s1 s2) as [->|H'|H']; try rewrite bytes_cmp_eq;
    (split; [intros E; try discriminate; congruence|intros E; injection E; intros; subst; try done; lia]).
Qed.

Lemma q_insert_in e x q : In x (q_insert e q) <-> x = e \/ In x q.
Proof.
  induction q as [|y q IH]; cbn; [naive_solver|].
  destruct (entry_cmp e y) eqn:C; cbn.
  - apply entry_cmp_eq in C as ->. naive_solver.
  - naive_solver.
  - rewrite IH. naive_solver.
Qed.

Lemma q_remove_in e x q : In x (q_remove e q) <-> In x q /\ x <> e.
Proof.
  unfold q_remove. rewrite filter_In. rewrite negb_true_iff, bool_decide_eq_false. done.
Qed.

Lemma batch_in es q x : In x (fold_left (fun q e => q_insert e q) es q) <-> In x es \/ In x q.
Proof.
  revert q. induction es as [|e es IH]; intros q; cbn; [naive_solver|].
  rewrite IH, q_insert_in. naive_solver.
Qed.

(** The effect of a message on one entry. *)
Definition says (m : exp_msg) (e : entry) (b : Prop) : Prop :=
  match m with
  | XClear s => b /\ en_slot e <> s
  | XUpdate s u =>
      (b \/ ((0 < eu_new u)%N /\ e = Entry (eu_new u) s (eu_key u))) /\
      ~ ((0 < eu_before u)%N /\ e = Entry (eu_before u) s (eu_key u))
  | XBatchAdd es => In e es \/ b
  end.

Lemma recv_in m e q : In e (fst (recv m q)) <-> says m e (In e q).
Proof.
  destruct m as [s|s u|es]; cbn.
  - rewrite filter_In, negb_true_iff, N.eqb_neq. done.
  - destruct (0 <? eu_new u)%N eqn:A, (0 <? eu_before u)%N eqn:B; cbn [fst];
      rewrite ?q_remove_in, ?q_insert_in; split; intros H; intuition (try lia; try done).
  - apply batch_in.
Qed.

Fixpoint hears (ms : list exp_msg) (e : entry) (b : Prop) : Prop :=
  match ms with
  | [] => b
  | m :: ms' => hears ms' e (says m e b)
  end.

Lemma says_mono m e (a b : Prop) : (a -> b) -> says m e a -> says m e b.
Proof. destruct m; cbn; naive_solver. Qed.
Lemma hears_mono ms e (a b : Prop) : (a -> b) -> hears ms e a -> hears ms e b.
Proof.
  revert a b. induction ms as [|m ms IH]; intros a b H; cbn; [done|]. apply IH. by apply says_mono.
Qed.
Lemma hears_app ms ns e b : hears (ms ++ ns) e b = hears ns e (hears ms e b).
Proof. revert b. induction ms as [|m ms IH]; intros b; cbn; [done|]. apply IH. Qed.

Definition msg_ok (m : exp_msg) : Prop :=
  match m with XBatchAdd es => Forall (fun e => 0 < en_at e)%N es | _ => True end.

Lemma recv_pos m q : msg_ok m -> Forall (fun e => 0 < en_at e)%N q ->
  Forall (fun e => 0 < en_at e)%N (fst (recv m q)).
Proof.
  rewrite !List.Forall_forall. intros M Q e H. apply recv_in in H.
  destruct m as [s|s u|es]; cbn in *.
  - apply Q, H.
  - destruct H as [[H|[H ->]] _]; [by apply Q|done].
  - rewrite List.Forall_forall in M. destruct H as [H|H]; [by apply M|by apply Q].
Qed.

Lemma dict_entries_pos ho s d : Forall (fun e => 0 < en_at e)%N (dict_entries ho s d).
Proof.
  unfold dict_entries. apply List.Forall_forall. intros e H. apply in_map_iff in H as ([k v] & <- & H).
  apply filter_In in H as [_ H]. cbn in *. lia.
Qed.

Lemma dict_entries_in (ho : horder) s d k :
  horder_ok ho -> (0 < deadline d k)%N -> In (Entry (deadline d k) s k) (dict_entries ho s d).
Proof.
  intros HO. unfold deadline, contents. destruct (inner d !! k) as [v|] eqn:E; cbn; [|lia].
  intros H. unfold dict_entries. apply in_map_iff. exists (k, v). split; [done|].
  apply filter_In. split; [|cbn; lia].
  apply elem_of_list_In. rewrite (HO value (inner d)). by apply elem_of_map_to_list.
Qed.

(** The head of the queue has the earliest deadline. *)
Inductive qsorted : list entry -> Prop :=
  | qs_nil : qsorted []
  | qs_cons e q : Forall (fun x => en_at e <= en_at x)%N q -> qsorted q -> qsorted (e :: q).

Lemma q_insert_sorted e q : qsorted q -> qsorted (q_insert e q).
Proof.
  induction 1 as [|x q F S IH]; cbn; [by constructor; constructor|].
  destruct (entry_cmp e x) eqn:C.
  - by constructor.
  - constructor; [|by constructor].
    assert (en_at e <= en_at x)%N.
    { unfold entry_cmp in C. destruct (N.compare_spec (en_at e) (en_at x)); try done; lia. }
    constructor; [done|]. rewrite List.Forall_forall in *. intros y Y. specialize (F y Y). lia.
  - constructor; [|done].
    assert (en_at x <= en_at e)%N.
    { unfold entry_cmp in C. destruct (N.compare_spec (en_at e) (en_at x)); try done; lia. }
    rewrite List.Forall_forall in *. intros y Y. apply q_insert_in in Y as [->|Y]; [done|by apply F].
Qed.

Lemma filter_sorted (f : entry -> bool) q : qsorted q -> qsorted (List.filter f q).
Proof.
  induction 1 as [|x q F S IH]; cbn; [constructor|].
  destruct (f x); [|done]. constructor; [|done].
  rewrite List.Forall_forall in *. intros y Y. apply filter_In in Y as [Y _]. by apply F.
Qed.

Lemma batch_sorted es q : qsorted q -> qsorted (fold_left (fun q e => q_insert e q) es q).
Proof.
  revert q. induction es as [|e es IH]; intros q S; cbn; [done|]. apply IH. by apply q_insert_sorted.
Qed.

Lemma recv_sorted m q : qsorted q -> qsorted (fst (recv m q)).
Proof.
  intros S. destruct m as [s|s u|es]; cbn.
  - by apply filter_sorted.
  - destruct (0 <? eu_new u)%N, (0 <? eu_before u)%N; cbn [fst];
      try apply filter_sorted; try apply q_insert_sorted; done.
  - by apply batch_sorted.
Qed.

(** ** One popped entry *)
Lemma purge_entry_cases now e d :
  (forall k, contents (purge_entry now e d) k = contents d k) \/
  ((exists x, contents d (en_key e) = Some (x, en_at e) /\ lives now (en_at e)) /\
   contents (purge_entry now e d) (en_key e) = None /\
   forall k, k <> en_key e -> contents (purge_entry now e d) k = contents d k).
Proof.
  unfold purge_entry. destruct (dict_get_case now (en_key e) d) as [v E A V|V].
  - cbn [v_exp touch]. destruct (v_exp v =? en_at e)%N eqn:Q.
    + right. apply N.eqb_eq in Q. split; [|split].
      * exists (v_data v). split; [unfold contents; rewrite E; cbn; by rewrite <- Q|].
        rewrite <- Q. by apply alive_lives.
      * unfold dict_remove, contents. cbn. by rewrite lookup_delete.
      * intros k K. unfold dict_remove, contents. cbn. rewrite lookup_delete_ne by done.
        unfold dict_put. cbn. by rewrite lookup_insert_ne.
    + left. intros k. pose proof (dict_get_same now (en_key e) d) as [_ S].
      unfold dict_get in S. rewrite E, A in S. apply S.
  - by left.
Qed.

Lemma scan_entry_contents now e d k : contents (fst (scan_entry now e d)) k = contents d k.
Proof.
  unfold scan_entry. pose proof (dict_get_same now (en_key e) d) as [_ S].
  destruct (dict_get now (en_key e) d). apply S.
Qed.

Lemma scan_entry_drop now e d :
  snd (scan_entry now e d) = false -> deadline d (en_key e) = en_at e -> (0 < en_at e)%N -> (en_at e <= now)%N.
Proof.
  unfold scan_entry, deadline, contents, dict_get. destruct (inner d !! en_key e) as [v|]; cbn; [|lia].
  destruct (alive now v) eqn:A; cbn.
  - intros; lia.
  - unfold alive in A. intros; lia.
Qed.

Ltac wcase x := destruct x as [t b q sc ch ts nt pm pc].

(** ** Safety of the purge *)
Definition pc_ok (P : N) (pc : ppc) : Prop :=
  match pc with
  | PLoop now => (now <= P)%N
  | PEntry now e => (now <= P)%N /\ (0 < en_at e <= now)%N
  | _ => True
  end.
Record safe (P : N) (x : world) : Prop := Safe {
  sf_clock : (w_clock x <= P)%N;
  sf_queue : Forall (fun e => 0 < en_at e)%N (w_queue x);
  sf_chan : Forall msg_ok (w_chan x);
  sf_threads : Forall (Forall (fun a => match a with ASend m => msg_ok m | _ => True end)) (w_threads x);
  sf_purge : pc_ok P (w_purge x) }.

Lemma forall_with_thread (Q : list act -> Prop) i a r ts :
  nth_error ts i = Some (a :: r) -> Forall Q ts -> (Q (a :: r) -> Q r) -> Forall Q (with_thread i r ts).
Proof.
  intros E F I. apply List.Forall_forall. rewrite List.Forall_forall in F. intros t H.
  unfold with_thread in H.
  assert (A : In t (firstn i ts) \/ (t = r /\ r <> []) \/ In t (skipn (S i) ts)).
  { destruct r; apply in_app_or in H; cbn in H; naive_solver. }
  destruct A as [A|[[-> _]|A]].
  - apply F. rewrite <- (firstn_skipn i ts). apply in_or_app. by left.
  - apply I, F. by eapply nth_error_In.
  - apply F. rewrite <- (firstn_skipn (S i) ts). apply in_or_app. by right.
Qed.

Lemma exp_notify_ok s e : Forall msg_ok (exp_notify s e).
Proof. unfold exp_notify. destruct e as [u|]; [|constructor]. destruct (_ =? _)%N; by repeat constructor. Qed.

Lemma spawn_ok ms ts :
  Forall msg_ok ms ->
  Forall (Forall (fun a => match a with ASend m => msg_ok m | _ => True end)) ts ->
  Forall (Forall (fun a => match a with ASend m => msg_ok m | _ => True end)) (spawn ms ts).
Proof.
  intros M T. unfold spawn. destruct ms as [|m ms]; [done|].
  apply List.Forall_app. split; [done|]. constructor; [|constructor].
  apply List.Forall_map. done.
Qed.

Lemma safe_step ho ev x x' P :
  safe P x -> step ho ev x = Some x' ->
  safe (match ev with ETick now => N.max P now | _ => P end) x'.
Proof.
  intros [C Q CH T PC] H. wcase x. cbn in C, Q, CH, T, PC.
  destruct ev as [now|[w|r]|s id c|s d| |i| | | | |]; cbn in H.
  - injection H as <-. split; cbn; try done; [lia|]. destruct pc; cbn in *; lia.
  - destruct (db_write t w b) as [b' o] eqn:E. injection H as <-. split; cbn; try done.
    apply spawn_ok; [|done]. unfold db_write, slot_write in E.
    destruct (next_id (b (get_slot (wkey w)))) as [id d1].
    destruct (wapply t w d1) as [[d2 r] u].
    destruct r; injection E as <- <-; cbn; try constructor. apply exp_notify_ok.
  - injection H as <-. by split.
  - destruct (process_forward s t id c (b s)) as [[d' o] ms] eqn:E. injection H as <-. split; cbn; try done.
    apply spawn_ok; [|done]. unfold process_forward in E.
    destruct c as [w|]; [|injection E as <- <- <-; constructor].
    destruct (id ?= _)%N; try (injection E as <- <- <-; constructor).
    destruct (wapply t w _) as [[d2 r] u]. destruct r; injection E as <- <- <-; try constructor.
    apply exp_notify_ok.
  - injection H as <-. split; cbn; try done. apply List.Forall_app. split; [done|].
    repeat constructor. cbn. apply dict_entries_pos.
  - injection H as <-. split; cbn; try done. apply List.Forall_app. split; [done|].
    constructor; [|constructor]. apply List.Forall_app. split; [|by repeat constructor].
    apply List.Forall_map. apply List.Forall_forall. done.
  - destruct (nth_error ts i) as [[|[m|s d|s|] r]|] eqn:E; try done.
    + injection H as <-. split; cbn; try done.
      * apply List.Forall_app. split; [done|]. constructor; [|constructor].
        rewrite List.Forall_forall in T. apply nth_error_In in E. apply T in E. by apply Forall_inv in E.
      * eapply forall_with_thread; [done..|]. apply Forall_inv_tail.
    + injection H as <-. split; cbn; try done. eapply forall_with_thread; [done..|]. apply Forall_inv_tail.
    + injection H as <-. split; cbn; try done. eapply forall_with_thread; [done..|]. apply Forall_inv_tail.
    + destruct sc; [done|]. injection H as <-. split; cbn; try done.
      eapply forall_with_thread; [done..|]. apply Forall_inv_tail.
  - destruct sc as [[|e es]|]; [| |done].
    + injection H as <-. by split.
    + destruct (scan_entry t e (b (en_slot e))) as [d' keep] eqn:E. injection H as <-. split; cbn; try done.
      destruct keep; [done|]. unfold q_remove. rewrite List.Forall_forall in *.
      intros y Y. apply filter_In in Y as [Y _]. by apply Q.
  - destruct sc, nt, ch as [|m ch]; try done. destruct (recv m q) as [q' note] eqn:E. injection H as <-.
    apply List.Forall_cons_iff in CH as [M CH]. split; cbn; try done.
    replace q' with (fst (recv m q)) by (by rewrite E). by apply recv_pos.
  - destruct nt; [|done]. injection H as <-. by split.
  - unfold purge_step in H. destruct pc as [|now|now e|next| |w]; cbn in PC.
    + injection H as <-. by split.
    + destruct sc; [done|]. destruct q as [|e q]; [injection H as <-; by split|].
      destruct (now <? en_at e)%N eqn:L; injection H as <-; split; cbn -[q_remove]; try done.
      * rewrite List.Forall_forall in *. intros y Y. apply q_remove_in in Y as [Y _]. by apply Q.
      * apply Forall_inv in Q. lia.
    + injection H as <-. split; cbn; try done. lia.
    + destruct (next =? 0)%N; [injection H as <-; by split|].
      destruct (t <? next)%N; injection H as <-; by split.
    + destruct pm; [|done]. injection H as <-. by split.
    + destruct pm; [|done]. injection H as <-. by split.
  - destruct pc; try done. injection H as <-. by split.
Qed.

Lemma step_clock ho ev x x' :
  step ho ev x = Some x' -> w_clock x' = match ev with ETick now => now | _ => w_clock x end.
Proof.
  intros H. wcase x. destruct ev as [now|[w|r]|s id c|s d| |i| | | | |]; cbn in H |- *;
    unfold purge_step in H;
    repeat match type of H with
    | Some _ = Some _ => injection H as <-
    | None = Some _ => discriminate H
    | context [match ?z with _ => _ end] => destruct z
    end; try done.
Qed.

Lemma peak_ge t evs : (t <= peak t evs)%N.
Proof. revert t. induction evs as [|ev evs IH]; intros t; [cbn; lia|]. destruct ev; cbn [peak]; try apply IH. lia. Qed.

Lemma safe_steps ho evs x x' P :
  safe P x -> steps ho evs x = Some x' -> safe (N.max P (peak (w_clock x) evs)) x'.
Proof.
  revert x P. induction evs as [|ev evs IH]; intros x P S H; cbn in H.
  - injection H as <-. cbn. destruct S as [C Q CH T PC]. split; try done; [lia|].
    destruct (w_purge x); cbn in *; lia.
  - destruct (step ho ev x) as [y|] eqn:E; [|done].
    pose proof (step_clock _ _ _ _ E) as K.
    specialize (IH y _ (safe_step _ _ _ _ _ S E) H).
    pose proof (sf_clock _ _ S) as C.
    destruct ev; cbn [peak]; rewrite K in IH; try done.
    pose proof (peak_ge now evs).
    replace (N.max P (N.max (w_clock x) (peak now evs))) with (N.max (N.max P now) (peak now evs)) by lia. done.
Qed.

(** With a clock that never steps back the largest reading is the current one. *)
Lemma forward_peak ho evs x x' :
  clock_forward (w_clock x) evs -> steps ho evs x = Some x' -> peak (w_clock x) evs = w_clock x'.
Proof.
  revert x. induction evs as [|ev evs IH]; intros x F H; cbn in H; [by injection H as <-|].
  destruct (step ho ev x) as [y|] eqn:E; [|done]. pose proof (step_clock _ _ _ _ E) as K.
  destruct ev; cbn [peak clock_forward] in *; try (rewrite <- K; rewrite <- K in F; by apply IH).
  destruct F as [L F]. rewrite <- K in L, F |- *. rewrite (IH y F H).
  assert (M : (w_clock y <= w_clock x')%N); [|lia].
  clear -F H. revert y F H. induction evs as [|ev evs IH]; intros y F H; cbn in H; [injection H as <-; lia|].
  destruct (step ho ev y) as [z|] eqn:E; [|done]. pose proof (step_clock _ _ _ _ E) as K.
  destruct ev; cbn [clock_forward] in F; try (rewrite <- K in F |- *; by apply IH).
  destruct F as [L F]. rewrite <- K in L, F. specialize (IH z F H). lia.
Qed.

Lemma clock_forward_app t evs evs' :
  clock_forward t (evs ++ evs') -> clock_forward t evs.
Proof.
  revert t. induction evs as [|ev evs IH]; intros t F; [done|].
  destruct ev; cbn in *; try (by apply IH). destruct F as [L F]. split; [done|by apply IH].
Qed.

Lemma steps_app ho evs evs' x x' :
  steps ho (evs ++ evs') x = Some x' -> exists y, steps ho evs x = Some y /\ steps ho evs' y = Some x'.
Proof.
  revert x. induction evs as [|ev evs IH]; intros x H; [by exists x|]. cbn in *.
  destruct (step ho ev x) as [y|]; [|done]. by apply IH.
Qed.
Lemma steps_app_2 ho evs evs' x y x' :
  steps ho evs x = Some y -> steps ho evs' y = Some x' -> steps ho (evs ++ evs') x = Some x'.
Proof.
  revert x. induction evs as [|ev evs IH]; intros x H H'; cbn in *; [by injection H as ->|].
  destruct (step ho ev x) as [z|]; [|done]. by apply IH.
Qed.
Lemma clock_forward_app_2 ho evs evs' x y :
  steps ho evs x = Some y -> clock_forward (w_clock x) evs -> clock_forward (w_clock y) evs' ->
  clock_forward (w_clock x) (evs ++ evs').
Proof.
  revert x. induction evs as [|ev evs IH]; intros x H F F'; cbn in H; [by injection H as ->|].
  destruct (step ho ev x) as [z|] eqn:E; [|done]. pose proof (step_clock _ _ _ _ E) as K.
  destruct ev; cbn [app clock_forward] in *; try (rewrite <- K in F |- *; by apply IH).
  destruct F as [L F]. split; [done|]. rewrite <- K in F |- *. by apply IH.
Qed.

Lemma safe_start t : safe t (w_start t).
Proof. split; cbn; try done; lia. Qed.

(** What one step of the purge task does to the database. *)
Lemma purge_contents ho x x' P s k :
  safe P x -> step ho EPurge x = Some x' ->
  stored x' s k = stored x s k \/
  (exists y e, stored x s k = Some (y, e) /\ stored x' s k = None /\
    (0 < e <= P)%N /\ (w_clock x < e)%N).
Proof.
  intros S H. wcase x. pose proof (sf_purge _ _ S) as PC. cbn in PC, H. unfold stored. cbn [w_db].
  unfold purge_step in H. destruct pc as [|now|now e|next| |w].
  - injection H as <-. by left.
  - destruct sc; [done|]. destruct q as [|e q]; [injection H as <-; by left|].
    destruct (now <? en_at e)%N; injection H as <-; by left.
  - injection H as <-. cbn [w_db w_clock]. destruct (decide (s = en_slot e)) as [->|N]; [|left; by rewrite db_set_other].
    rewrite db_set_same. destruct (purge_entry_cases t e (b (en_slot e))) as [A|((y & A & L) & B & O)]; [left; apply A|].
    destruct (decide (k = en_key e)) as [->|N]; [|left; by apply O].
    right. exists y, (en_at e). cbn in PC. split; [done|]. split; [done|]. split; [lia|].
    destruct L as [L|L]; lia.
  - destruct (next =? 0)%N; [injection H as <-; by left|]. destruct (t <? next)%N; injection H as <-; by left.
  - destruct pm; [|done]. injection H as <-. by left.
  - destruct pm; [|done]. injection H as <-. by left.
Qed.

(** The other background steps do not change what is stored. *)
Lemma background_contents ho ev x x' s k :
  background ev -> ev <> EPurge -> w_threads x = [] -> step ho ev x = Some x' ->
  w_threads x' = [] /\ stored x' s k = stored x s k.
Proof.
  intros B NP T H. wcase x. cbn in T. subst ts. destruct ev as [now|c|s' id c|s' d| |i| | | | |]; try done; cbn in H.
  - by injection H as <-.
  - by destruct i.
  - destruct sc as [[|e es]|]; [| |done]; [by injection H as <-|].
    pose proof (scan_entry_contents t e (b (en_slot e))) as S.
    destruct (scan_entry t e (b (en_slot e))) as [d' keep]. injection H as <-. split; [done|].
    unfold stored. cbn [w_db]. destruct (decide (s = en_slot e)) as [->|N]; [rewrite db_set_same; apply S|by rewrite db_set_other].
  - destruct sc, nt, ch as [|m ch]; try done. destruct (recv m q). by injection H as <-.
  - destruct nt; [|done]. by injection H as <-.
  - destruct pc; try done. by injection H as <-.
Qed.

Lemma purge_threads ho x x' : step ho EPurge x = Some x' -> w_threads x' = w_threads x.
Proof.
  intros H. wcase x. cbn in H. unfold purge_step in H.
  repeat match type of H with
  | Some _ = Some _ => injection H as <-
  | None = Some _ => discriminate H
  | context [match ?z with _ => _ end] => destruct z
  end; try done.
Qed.

(** Background steps never remove anything, with a clock that does not step back. *)
Lemma background_keeps ho evs x x' s k :
  safe (w_clock x) x -> w_threads x = [] -> Forall background evs -> clock_forward (w_clock x) evs ->
  steps ho evs x = Some x' -> stored x' s k = stored x s k.
Proof.
  revert x. induction evs as [|ev evs IH]; intros x S T B F H; cbn in H; [by injection H as ->|].
  destruct (step ho ev x) as [y|] eqn:E; [|done]. apply List.Forall_cons_iff in B as [B Bs].
  pose proof (step_clock _ _ _ _ E) as K. pose proof (safe_step _ _ _ _ _ S E) as SY.
  assert (A : w_threads y = [] /\ stored y s k = stored x s k).
  { assert (D : ev = EPurge \/ ev <> EPurge) by (destruct ev; (left; congruence) || (right; congruence)).
    destruct D as [D|D]; [subst ev|].
    - split; [by rewrite (purge_threads _ _ _ E)|].
      destruct (purge_contents ho x y _ s k S E) as [A|(d & e & _ & _ & L1 & L2)]; [done|lia].
    - by eapply background_contents. }
  destruct A as [TY A]. rewrite <- A. apply IH; try done.
  - destruct ev; try (rewrite K; done). cbn in F, K. rewrite K.
    replace now with (N.max (w_clock x) now) by lia. done.
  - destruct ev; cbn in F; try (rewrite K; done). rewrite K. apply F.
Qed.

(** ** The purge task never oversleeps *)
Definition rested (x : world) : Prop :=
  unattended x ->
  match w_purge x with
  | PNext 0 | PIdle => w_queue x = []
  | PNext w | PSleep w => Forall (fun e => w <= en_at e)%N (w_queue x)
  | _ => True
  end.
Lemma rested_step ho ev x x' :
  qsorted (w_queue x) -> rested x -> step ho ev x = Some x' -> qsorted (w_queue x') /\ rested x'.
Proof.
  intros Q R H. wcase x. unfold rested, unattended in *. cbn in Q, R.
  destruct ev as [now|[w|r]|s id c|s d| |i| | | | |]; cbn in H.
  - by injection H as <-.
  - destruct (db_write t w b). by injection H as <-.
  - by injection H as <-.
  - destruct (process_forward s t id c (b s)) as [[d' o] ms]. by injection H as <-.
  - by injection H as <-.
  - by injection H as <-.
  - destruct (nth_error ts i) as [[|[m|s d|s|] r]|]; try done; try (by injection H as <-).
    destruct sc; [done|]. by injection H as <-.
  - destruct sc as [[|e es]|]; [| |done]; [by injection H as <-|].
    destruct (scan_entry t e (b (en_slot e))) as [d' keep]. injection H as <-. cbn [w_queue w_permit w_note w_purge].
    destruct keep; [done|]. split; [by apply filter_sorted|]. intros U. specialize (R U).
    assert (F : forall w, Forall (fun e => w <= en_at e)%N q -> Forall (fun e => w <= en_at e)%N (q_remove e q)).
    { intros w. rewrite !List.Forall_forall. intros A y Y. apply q_remove_in in Y as [Y _]. by apply A. }
    destruct pc as [| | |[|w]| |w]; try done; try (by apply F).
    + by rewrite R.
    + by rewrite R.
  - destruct sc, nt, ch as [|m ch]; try done. pose proof (recv_sorted m q Q) as S.
    pose proof (recv_in m) as I. destruct (recv m q) as [q' note] eqn:E. injection H as <-.
    cbn [w_queue w_permit w_note w_purge fst] in *. split; [done|]. intros [-> ->]. specialize (R (conj eq_refl eq_refl)).
    assert (EM : q = [] -> q' = []).
    { intros ->. destruct m as [s|s u|es]; cbn in E.
      - by injection E as <-.
      - destruct (0 <? eu_new u)%N; [by destruct (0 <? eu_before u)%N|]. by destruct (0 <? eu_before u)%N; injection E as <-.
      - done. }
    assert (F : forall w, Forall (fun e => w <= en_at e)%N q -> Forall (fun e => w <= en_at e)%N q').
    { intros w. rewrite !List.Forall_forall. intros A y Y.
      replace q' with (fst (recv m q)) in Y by (by rewrite E). apply I in Y.
      destruct m as [s|s u|es]; cbn in Y.
      - apply A, Y.
      - destruct Y as [[Y|[P ->]] _]; [by apply A|]. cbn.
        destruct (0 <? eu_new u)%N eqn:Z; [|lia]. cbn in E. rewrite Z in E.
        assert (N : match q with [] => true | ne :: _ => (eu_new u <? en_at ne)%N end = false)
          by (destruct (0 <? eu_before u)%N; by injection E).
        destruct q as [|ne q]; [done|]. specialize (A ne (or_introl eq_refl)). lia.
      - done. }
    destruct pc as [| | |[|w]| |w]; try done; try (by apply F); by apply EM.
  - destruct nt; [|done]. injection H as <-. split; [done|]. by intros [? ?].
  - unfold purge_step in H. destruct pc as [|now|now e|next| |w].
    + by injection H as <-.
    + destruct sc; [done|]. destruct q as [|e q]; [by injection H as <-|].
      destruct (now <? en_at e)%N eqn:L; injection H as <-; cbn -[q_remove] in *.
      * split; [done|]. intros _. destruct (en_at e) as [|p] eqn:Z; [lia|]. inversion Q as [|? ? F Q']; subst.
        constructor; [lia|]. rewrite Z in F. done.
      * split; [|done]. by apply filter_sorted.
    + by injection H as <-.
    + destruct (next =? 0)%N eqn:Z.
      * injection H as <-. cbn. split; [done|]. apply N.eqb_eq in Z as ->. done.
      * destruct (t <? next)%N eqn:L; injection H as <-; cbn; [|done]. split; [done|].
        destruct next; [done|]. done.
    + destruct pm; [|done]. by injection H as <-.
    + destruct pm; [|done]. by injection H as <-.
  - destruct pc; try done. by injection H as <-.
Qed.

Lemma rested_steps ho evs x x' :
  qsorted (w_queue x) -> rested x -> steps ho evs x = Some x' -> qsorted (w_queue x') /\ rested x'.
Proof.
  revert x. induction evs as [|ev evs IH]; intros x Q R H; cbn in H; [by injection H as <-|].
  destruct (step ho ev x) as [y|] eqn:E; [|done]. destruct (rested_step _ _ _ _ Q R E). by apply (IH y).
Qed.

(** ** Tracking of deadlines *)

(** A critical section on a slot together with the notifications it is going to send. *)
Definition notified (s : N) (k : bytes) (d d' : dict) (ms : list exp_msg) : Prop :=
  (forall k', k' <> k -> deadline d' k' = deadline d k') /\
  ((ms = [] /\ (deadline d' k = deadline d k \/ deadline d' k = 0%N)) \/
   exists u, ms = [XUpdate s u] /\ eu_key u = k /\ eu_new u = deadline d' k /\ eu_before u <> eu_new u).

Lemma wapply_status now w d d' r u :
  wapply now w d = (d', r, u) ->
  (u <> None -> exists p, r = OOk p) /\
  forall v, u = Some v -> eu_before v = eu_new v ->
    deadline d' (wkey w) = deadline d (wkey w) \/ deadline d' (wkey w) = 0%N.
Proof.
  intros H. pose proof (wapply_announces _ _ _ _ _ _ H) as A. split.
  - destruct w; cbn [wapply] in H; unfold no_exp in H; try (by injection H as <- <- <-).
    + destruct (del_apply k d) as [[? ?] ?]. injection H as <- <- <-. by eexists.
    + destruct (expire_apply now k at_ nx gl d) as [[? ?] ?]. injection H as <- <- <-. by eexists.
    + destruct (set_apply now k x ea nx d) as [[? ?] ?]. injection H as <- <- <-. by eexists.
    + unfold restore_apply in H. destruct (dict_get now (r_key r0) d) as [d1 o].
      destruct o, (r_replace r0); try (by injection H as <- <- <-);
        destruct (deserialize get_data (r_value r0)); injection H as <- <- <-; try done; by eexists.
  - intros v -> E. destruct A as [K D]. rewrite <- D, <- E. clear D.
    destruct w; cbn [wapply] in H; unfold no_exp in H; try discriminate H; cbn [wkey] in *.
    + unfold del_apply, dict_remove in H. destruct (inner d !! k) as [x|] eqn:I; [|done].
      destruct (0 <? v_exp x)%N; [|discriminate]. injection H as <- <- <-. cbn in *. lia.
    + unfold expire_apply in H. destruct (dict_get_case now k d) as [x I ? ?|?]; [|done].
      destruct (expire_update nx gl (v_exp (touch now x)) at_); [|discriminate]. injection H as <- <- <-. cbn [eu_before v_exp touch].
      left. symmetry. by apply deadline_of_inner.
    + unfold set_apply in H. destruct nx, ea as [e|];
        try (destruct (dict_get_case now k d) as [y I ? ?|?]); rewrite ?dict_insert_put in H; cbn [fst snd] in H;
        try discriminate;
        repeat match type of H with context [if ?c then _ else _] => destruct c end;
        try discriminate; injection H as <- <- <-; cbn [eu_before v_exp touch]; try (by right);
        left; symmetry; by apply deadline_of_inner.
    + unfold restore_apply in H. destruct (dict_get_case now (r_key r0) d) as [x I ? ?|?], (r_replace r0);
        try discriminate; destruct (deserialize get_data (r_value r0)); try discriminate; injection H as <- <- <-;
        cbn [eu_before v_exp touch]; try (by right); left; symmetry; by apply deadline_of_inner.
Qed.

Lemma deadline_other now w d k' :
  k' <> wkey w -> deadline (fst (fst (wapply now w d))) k' = deadline d k'.
Proof.
  intros N. pose proof (wapply_only now w d) as [_ O]. unfold deadline, contents. by rewrite O.
Qed.

Lemma deadline_inner d d' k : inner d = inner d' -> deadline d k = deadline d' k.
Proof. unfold deadline, contents. by intros ->. Qed.

Lemma wapply_notified s now w d d' r u :
  wapply now w d = (d', r, u) ->
  notified s (wkey w) d d' (match r with OOk _ => exp_notify s u | _ => [] end).
Proof.
  intros H. pose proof (wapply_announces _ _ _ _ _ _ H) as A. pose proof (wapply_status _ _ _ _ _ _ H) as [R B].
  split.
  - intros k' N. rewrite <- (deadline_other now w d k' N). by rewrite H.
  - destruct u as [u|].
    + destruct (R ltac:(done)) as [p ->]. unfold exp_notify. destruct (eu_before u =? eu_new u)%N eqn:E.
      * left. split; [done|]. apply (B u); [done|lia].
      * right. exists u. destruct A as [A1 A2]. repeat split; try done. lia.
    + left. destruct r; cbn; done.
Qed.

Lemma slot_write_notified s now w d d' o :
  slot_write s now w d = (d', o) -> notified s (wkey w) d d' (wo_exp o).
Proof.
  intros H. unfold slot_write in H. destruct (next_id d) as [id d1] eqn:E.
  assert (I : inner d1 = inner d). { pose proof (next_id_inner d) as I. by rewrite E in I. }
  destruct (wapply now w d1) as [[d2 r] u] eqn:W. pose proof (wapply_notified s _ _ _ _ _ _ W) as N.
  assert (wo_exp o = match r with OOk _ => exp_notify s u | _ => [] end /\ d' = d2) as [-> ->]
    by (destruct r; by injection H as <- <-).
  destruct N as [N1 N2]. split.
  - intros k' K. rewrite (N1 k' K). by apply deadline_inner.
  - by rewrite <- (deadline_inner d1 d (wkey w) I).
Qed.

Lemma forward_notified s now id c d d' o ms :
  process_forward s now id c d = (d', o, ms) ->
  exists k, notified s k d d' ms.
Proof.
  intros H. unfold process_forward in H. destruct c as [w|].
  - exists (wkey w). assert (Z : notified s (wkey w) d d []) by (split; [done|left; by split; [|left]]).
    destruct (id ?= _)%N; try (by injection H as <- <- <-).
    destruct (wapply now w (set_write_id id d)) as [[d2 r] u] eqn:W.
    pose proof (wapply_notified s _ _ _ _ _ _ W) as [N1 N2].
    assert (ms = match r with OOk _ => exp_notify s u | _ => [] end /\ d' = d2) as [-> ->]
      by (destruct r; by injection H as <- <- <-).
    split; [|done]. intros k' K. by rewrite (N1 k' K).
  - exists []. injection H as <- <- <-. split; [done|left; by split; [|left]].
Qed.

(** Notifications of slot [s] that have not been sent. *)
Definition flight_of (s : N) (a : act) : list exp_msg :=
  match a with ASend (XUpdate s' u) => if (s' =? s)%N then [XUpdate s' u] else [] | _ => [] end.
Definition flight (s : N) (t : list act) : list exp_msg := flat_map (flight_of s) t.
Definition pend (s : N) (ts : list (list act)) : list exp_msg := flat_map (flight s) ts.

Lemma pend_app s ts ts' : pend s (ts ++ ts') = pend s ts ++ pend s ts'.
Proof. apply flat_map_app. Qed.

Lemma pend_in s ts m : In m (pend s ts) -> exists u t, m = XUpdate s u /\ In t ts /\ In (ASend (XUpdate s u)) t.
Proof.
  intros H. apply in_flat_map in H as (t & T & H). apply in_flat_map in H as (a & A & H).
  destruct a as [[|s' u|]| | |]; cbn in H; try done. destruct (s' =? s)%N eqn:E; [|done].
  apply N.eqb_eq in E as ->. destruct H as [<-|[]]. by exists u, t.
Qed.

Lemma not_in_flight x s : ~ in_flight x s -> pend s (w_threads x) = [].
Proof.
  intros H. destruct (pend s (w_threads x)) as [|m l] eqn:E; [done|]. destruct H.
  destruct (pend_in s (w_threads x) m) as (u & t & -> & T & A); [rewrite E; by left|]. by exists t, u.
Qed.

Lemma thread_split ts i a r :
  nth_error ts i = Some (a :: r) ->
  exists l1 l2, ts = l1 ++ (a :: r) :: l2 /\
    with_thread i r ts = l1 ++ (match r with [] => [] | _ => [r] end) ++ l2.
Proof.
  intros H. apply nth_error_split in H as (l1 & l2 & -> & L). exists l1, l2. split; [done|].
  unfold with_thread. replace (firstn i (l1 ++ (a :: r) :: l2)) with l1.
  - replace (skipn (S i) (l1 ++ (a :: r) :: l2)) with l2; [by destruct r|].
    subst i. replace (l1 ++ (a :: r) :: l2) with ((l1 ++ [a :: r]) ++ l2) by (by rewrite <- app_assoc).
    rewrite skipn_app, skipn_all2 by (rewrite app_length; cbn; lia). rewrite app_length. cbn.
    by replace (S (length l1) - (length l1 + 1))%nat with 0%nat by lia.
  - subst i. rewrite firstn_app, firstn_all, Nat.sub_diag. cbn. by rewrite app_nil_r.
Qed.

Lemma pend_thread s ts i a r :
  nth_error ts i = Some (a :: r) ->
  exists p1 p2, pend s ts = p1 ++ flight_of s a ++ p2 /\ pend s (with_thread i r ts) = p1 ++ p2.
Proof.
  intros H. destruct (thread_split _ _ _ _ H) as (l1 & l2 & E & ->). rewrite E. rewrite !pend_app.
  exists (pend s l1), (flight s r ++ pend s l2). split.
  - f_equal. cbn. by rewrite app_assoc.
  - f_equal. f_equal. destruct r; cbn; [done|]. by rewrite app_nil_r.
Qed.

Definition has_act (P : act -> Prop) (ts : list (list act)) : Prop :=
  exists t a, In t ts /\ In a t /\ P a.
Lemma has_act_thread (P : act -> Prop) ts i a r :
  nth_error ts i = Some (a :: r) -> has_act P ts -> P a \/ has_act P (with_thread i r ts).
Proof.
  intros H (t & a' & T & A & Q). destruct (thread_split _ _ _ _ H) as (l1 & l2 & E & ->). subst ts.
  apply in_app_or in T as [T|[<-|T]].
  - right. exists t, a'. repeat split; try done. apply in_or_app. by left.
  - destruct A as [->|A]; [by left|]. right. exists r, a'. repeat split; try done.
    apply in_or_app. right. destruct r; [done|]. by left.
  - right. exists t, a'. repeat split; try done. apply in_or_app. right. apply in_or_app. by right.
Qed.
Lemma has_act_rest (P : act -> Prop) ts i a r :
  nth_error ts i = Some (a :: r) -> (exists a', In a' r /\ P a') -> has_act P (with_thread i r ts).
Proof.
  intros H (a' & A & Q). destruct (thread_split _ _ _ _ H) as (l1 & l2 & E & ->).
  exists r, a'. repeat split; try done. apply in_or_app. right. destruct r; [done|]. by left.
Qed.
Lemma has_act_app (P : act -> Prop) ts ts' : has_act P ts -> has_act P (ts ++ ts').
Proof. intros (t & a & T & H). exists t, a. split; [apply in_or_app; by left|done]. Qed.

Definition swaps (s : N) (a : act) : Prop := match a with ASwap s' _ => s' = s | _ => False end.
Definition adds (e : entry) (a : act) : Prop :=
  match a with ASend (XBatchAdd es) => In e es | _ => False end.

Fixpoint shape (ho : horder) (t : list act) : Prop :=
  match t with
  | [] => True
  | ASend (XClear s) :: r => (exists d, In (ASwap s d) r) /\ shape ho r
  | ASwap s d :: r => In (ASend (XBatchAdd (dict_entries ho s d))) r /\ shape ho r
  | _ :: r => shape ho r
  end.

Record tracks (ho : horder) (L : N) (x : world) : Prop := Tracks {
  tr_due : forall s k, (L < due x s k)%N ->
    hears (w_chan x ++ pend s (w_threads x)) (Entry (due x s k) s k) (In (Entry (due x s k) s k) (w_queue x)) \/
    has_act (swaps s) (w_threads x) \/ has_act (adds (Entry (due x s k) s k)) (w_threads x);
  tr_one : forall s, (length (pend s (w_threads x)) <= 1)%nat;
  tr_pend : forall s u, In (XUpdate s u) (pend s (w_threads x)) ->
    eu_before u <> eu_new u /\ (due x s (eu_key u) = eu_new u \/ due x s (eu_key u) = 0%N);
  tr_shape : Forall (shape ho) (w_threads x);
  tr_pc : match w_purge x with PLoop now | PEntry now _ => (now <= L)%N | _ => True end }.

Lemma says_other m e (b : Prop) :
  match m with XUpdate s _ | XClear s => s <> en_slot e | _ => False end -> says m e b <-> b.
Proof.
  destruct m as [s|s u|es]; cbn; try done.
  - intros N. split; [by intros [? _]|]. intros H. split; [done|congruence].
  - intros N. split.
    + intros [[H|[_ ->]] _]; [done|by destruct N].
    + intros H. split; [by left|]. intros [_ ->]. by destruct N.
Qed.

Lemma pend_survive ho L x s k (b : Prop) :
  tracks ho L x -> (0 < due x s k)%N -> b -> hears (pend s (w_threads x)) (Entry (due x s k) s k) b.
Proof.
  intros T P B. pose proof (tr_one _ _ _ T s) as O. pose proof (tr_pend _ _ _ T s) as U.
  destruct (pend s (w_threads x)) as [|m [|? ?]] eqn:E; cbn in O; [done| |lia].
  destruct (pend_in s (w_threads x) m) as (u & t & -> & _ & _); [rewrite E; by left|].
  destruct (U u (or_introl eq_refl)) as [N D]. cbn. split; [by left|].
  intros [P' Q]. injection Q as Q1 Q2. subst k. destruct D as [D|D]; [congruence|lia].
Qed.

Lemma hears_pend_other s s' k e m : s' <> s -> In m (pend s' e) ->
  match m with XUpdate s0 _ | XClear s0 => s0 <> en_slot (Entry k s []) | _ => False end.
Proof. intros N H. apply pend_in in H as (u & t & -> & _). done. Qed.

Lemma spawn_pend s s' k d d' ms ts :
  notified s k d d' ms -> pend s' (spawn ms ts) = pend s' ts ++ (if (s' =? s)%N then ms else []).
Proof.
  intros [_ [[-> _]|(u & -> & _)]]; unfold spawn; cbn.
  - destruct (s' =? s)%N; by rewrite app_nil_r.
  - rewrite pend_app. f_equal. cbn. rewrite N.eqb_sym. by destruct (s' =? s)%N.
Qed.

Lemma spawn_has P ms ts : has_act P ts -> has_act P (spawn ms ts).
Proof. unfold spawn. destruct ms; [done|]. apply has_act_app. Qed.

Lemma spawn_shape ho s k d d' ms ts :
  notified s k d d' ms -> Forall (shape ho) ts -> Forall (shape ho) (spawn ms ts).
Proof.
  intros [_ [[-> _]|(u & -> & _)]] F; unfold spawn; [done|]. apply List.Forall_app. split; [done|].
  by repeat constructor.
Qed.

Lemma tracks_section ho L x s k d' ms :
  tracks ho L x -> pend s (w_threads x) = [] -> notified s k (w_db x s) d' ms ->
  tracks ho L (World (w_clock x) (db_set s d' (w_db x)) (w_queue x) (w_scan x) (w_chan x)
                 (spawn ms (w_threads x)) (w_note x) (w_permit x) (w_purge x)).
Proof.
  intros T E N. pose proof (spawn_pend s) as SP. pose proof T as [TD T1 TP TS TC]. split; cbn [w_threads w_chan w_queue w_purge]; try done.
  - intros s' k' P. unfold due in *. cbn [w_db] in *.
    rewrite (spawn_pend s s' k _ _ _ _ N). destruct (decide (s' = s)) as [->|NE].
    + rewrite db_set_same in *. rewrite N.eqb_refl, E. cbn [app].
      destruct N as [NO [[-> D]|(u & -> & <- & D & B)]].
      * rewrite app_nil_r. assert (Q : deadline d' k' = deadline (w_db x s) k').
        { destruct (decide (k' = k)) as [->|NK]; [|by apply NO]. destruct D as [D|D]; [done|lia]. }
        rewrite Q in *. specialize (TD s k' P). rewrite E, app_nil_r in TD.
        destruct TD as [TD|[TD|TD]]; [by left|right; left; by apply spawn_has|right; right; by apply spawn_has].
      * rewrite hears_app. cbn [hears]. destruct (decide (k' = eu_key u)) as [->|NK].
        -- left. cbn. split.
           ++ right. rewrite D. split; [lia|done].
           ++ intros [B1 B2]. injection B2 as B2. congruence.
        -- rewrite (NO k' NK) in *. specialize (TD s k' P). rewrite E, app_nil_r in TD.
           destruct TD as [TD|[TD|TD]]; [left|right; left; by apply has_act_app|right; right; by apply has_act_app].
           cbn. split; [by left|]. intros [_ B2]. injection B2 as _ B2. by destruct NK.
    + rewrite db_set_other in * by done. replace (s' =? s)%N with false by lia. rewrite app_nil_r.
      destruct (TD s' k' P) as [H|[H|H]]; [by left|right; left; by apply spawn_has|right; right; by apply spawn_has].
  - intros s'. rewrite (spawn_pend s s' k _ _ _ _ N). destruct (s' =? s)%N eqn:Q.
    + apply N.eqb_eq in Q as ->. rewrite E. destruct N as [_ [[-> _]|(u & -> & _)]]; cbn; lia.
    + rewrite app_nil_r. apply T1.
  - intros s' u H. rewrite (spawn_pend s s' k _ _ _ _ N) in H. unfold due. cbn [w_db].
    destruct (s' =? s)%N eqn:Q.
    + apply N.eqb_eq in Q as ->. rewrite E in H. rewrite db_set_same. destruct N as [_ [[-> _]|(v & -> & K & D & B)]]; [done|].
      destruct H as [H|[]]. injection H as ->. rewrite K. split; [done|]. by left.
    + rewrite app_nil_r in H. rewrite db_set_other by lia. by apply TP.
  - eapply spawn_shape; done.
Qed.

(** Steps that leave messages and threads alone, forget deadlines or entries that do not matter. *)
Lemma tracks_weaken ho L L' x x' :
  tracks ho L x -> (L <= L')%N ->
  w_chan x' = w_chan x -> w_threads x' = w_threads x ->
  (forall s k, due x' s k = due x s k \/ due x' s k = 0%N) ->
  (forall s k, (L' < due x' s k)%N -> due x' s k = due x s k ->
     In (Entry (due x s k) s k) (w_queue x) -> In (Entry (due x s k) s k) (w_queue x')) ->
  (match w_purge x' with PLoop now | PEntry now _ => (now <= L')%N | _ => True end) ->
  tracks ho L' x'.
Proof.
  intros [TD T1 TP TS TC] LE EC ET D Q PC. split; rewrite ?EC, ?ET; try done.
  - intros s k P. destruct (D s k) as [DD|DD]; [|lia]. specialize (Q s k P DD). rewrite DD in *.
    destruct (TD s k ltac:(lia)) as [H|[H|H]]; [left|right; by left|right; by right].
    revert H. by apply hears_mono.
  - intros s u H. destruct (TP s u H) as [A B]. split; [done|].
    destruct (D s (eu_key u)) as [Z|Z]; rewrite Z; [done|by right].
Qed.

Lemma tracks_step ho L ev x x' :
  horder_ok ho -> tracks ho L x -> waits ev x -> step ho ev x = Some x' ->
  tracks ho (N.max L (look ev x)) x'.
Proof.
  intros HO T W H. pose proof T as [TD T1 TP TS TC].
  assert (T' : forall M, (L <= M)%N -> tracks ho M x).
  { intros M LE. eapply tracks_weaken; try done; [by left|]. destruct (w_purge x); try done; lia. }
  wcase x. destruct ev as [now|[w|r]|s id c|s d| |i| | | | |]; cbn -[look] in H.
  - injection H as <-. eapply tracks_weaken; try done; [cbn; lia|by left|]. destruct pc; cbn in *; try done; lia.
  - unfold db_write in H. destruct (slot_write (get_slot (wkey w)) t w (b (get_slot (wkey w)))) as [d' o] eqn:E.
    injection H as <-. cbn [look]. rewrite N.max_0_r.
    apply (tracks_section ho L (World t b q sc ch ts nt pm pc) (get_slot (wkey w)) (wkey w) d' (wo_exp o) T).
    + apply (not_in_flight (World t b q sc ch ts nt pm pc)). done.
    + by apply slot_write_notified in E.
  - injection H as <-. unfold db_read, slot_read.
    pose proof (rapply_same ho t r (b (get_slot (rkey r)))) as S.
    destruct (rapply ho t r (b (get_slot (rkey r)))) as [d' o]. cbn [fst] in *.
    eapply tracks_weaken; try done; [cbn; lia| |destruct pc; cbn in *; try done; lia].
    intros s k. left. unfold due, deadline. cbn [w_db].
    destruct (decide (s = get_slot (rkey r))) as [->|N]; [|by rewrite db_set_other].
    rewrite db_set_same. destruct S as [_ S]. by rewrite S.
  - destruct (process_forward s t id c (b s)) as [[d' o] ms] eqn:E. injection H as <-. cbn [look]. rewrite N.max_0_r.
    destruct (forward_notified _ _ _ _ _ _ _ _ E) as [k N].
    apply (tracks_section ho L (World t b q sc ch ts nt pm pc) s k d' ms T); [|done].
    apply (not_in_flight (World t b q sc ch ts nt pm pc)). done.
  - injection H as <-. cbn [look]. rewrite N.max_0_r.
    assert (PE : forall s', pend s' (ts ++ [[ASend (XClear s); ASwap s d; ASend (XBatchAdd (dict_entries ho s d))]]) = pend s' ts).
    { intros s'. rewrite pend_app. cbn. by rewrite app_nil_r. }
    split; cbn [w_threads w_chan w_queue w_purge] in *.
    + intros s' k P. rewrite PE. unfold due in *. cbn [w_db] in *.
      destruct (TD s' k P) as [A|[A|A]]; [by left|right; left; by apply has_act_app|right; right; by apply has_act_app].
    + intros s'. rewrite PE. apply T1.
    + intros s' u U. rewrite PE in U. by apply TP.
    + apply List.Forall_app. split; [done|]. constructor; [|constructor]. cbn.
      split; [exists d; by left|]. split; [by left|done].
    + done.
  - injection H as <-. cbn [look]. rewrite N.max_0_r.
    assert (PE : forall s', pend s' (ts ++ [map AFlush all_slots ++ [AScan]]) = pend s' ts).
    { intros s'. rewrite pend_app. rewrite <- (app_nil_r (pend s' ts)) at 2. apply (f_equal (app (pend s' ts))).
      unfold pend. generalize all_slots. intros l. cbn. rewrite app_nil_r. induction l as [|a l IH]; cbn; done. }
    split; cbn [w_threads w_chan w_queue w_purge] in *.
    + intros s' k P. rewrite PE. unfold due in *. cbn [w_db] in *.
      destruct (TD s' k P) as [A|[A|A]]; [by left|right; left; by apply has_act_app|right; right; by apply has_act_app].
    + intros s'. rewrite PE. apply T1.
    + intros s' u U. rewrite PE in U. by apply TP.
    + apply List.Forall_app. split; [done|]. constructor; [|constructor].
      generalize all_slots. intros l. induction l as [|a l IH]; cbn; done.
    + done.
  - (* a step of a thread *)
    cbn [look]. rewrite N.max_0_r. cbn [w_threads] in *.
    destruct (nth_error ts i) as [[|a r]|] eqn:E; try done.
    assert (SH : Forall (shape ho) (with_thread i r ts)).
    { eapply forall_with_thread; [done..|]. destruct a as [[]| | |]; cbn; naive_solver. }
    assert (SA : shape ho (a :: r)).
    { rewrite List.Forall_forall in TS. apply TS. by eapply nth_error_In. }
    assert (PS : forall s, pend s (with_thread i r ts) = pend s ts /\ flight_of s a = [] \/
                   exists u, a = ASend (XUpdate s u) /\ pend s ts = [XUpdate s u] /\ pend s (with_thread i r ts) = []).
    { intros s. destruct (pend_thread s _ _ _ _ E) as (p1 & p2 & E1 & E2).
      destruct (flight_of s a) as [|m l] eqn:FL.
      - left. by rewrite E1, E2.
      - right. destruct a as [[|s' u|]| | |]; cbn in FL; try done. destruct (s' =? s)%N eqn:Q; [|done].
        apply N.eqb_eq in Q as ->. injection FL as <- <-. exists u. specialize (T1 s).
        rewrite E1 in T1. rewrite app_length in T1. cbn in T1.
        destruct p1; [|cbn in T1; lia]. destruct p2; [|cbn in T1; lia]. by rewrite E1, E2. }
    assert (PO : forall s, (length (pend s (with_thread i r ts)) <= 1)%nat).
    { intros s. destruct (PS s) as [[-> _]|(u & _ & _ & ->)]; [apply T1|cbn; lia]. }
    assert (PI : forall s m, In m (pend s (with_thread i r ts)) -> In m (pend s ts)).
    { intros s m. destruct (PS s) as [[-> _]|(u & _ & _ & ->)]; done. }
    destruct a as [m|s d|s|].
    + injection H as <-. split; cbn [w_threads w_chan w_queue w_purge] in *; try done; [|intros s u U; by apply TP, PI].
      intros s k P. unfold due in *. cbn [w_db] in *. rewrite <- app_assoc.
      assert (CL : m = XClear s -> has_act (swaps s) (with_thread i r ts)).
      { intros ->. destruct SA as [[d SA] _]. eapply has_act_rest; [done|]. by exists (ASwap s d). }
      destruct (TD s k P) as [A|[A|A]].
      * destruct (PS s) as [[-> FL]|(u & EA & EP & ->)].
        -- destruct m as [s'|s' u|es].
           ++ destruct (decide (s' = s)) as [->|NS]; [right; left; by apply CL|left].
              rewrite hears_app in A |- *. cbn [app hears]. revert A. apply hears_mono. by intros; apply says_other.
           ++ left. rewrite hears_app in A |- *. cbn [app hears].
              revert A. apply hears_mono. intros; apply says_other; [|done]. cbn. cbn in FL.
              destruct (s' =? s)%N eqn:Q; [done|]. lia.
           ++ left. rewrite hears_app in A |- *. cbn [app hears]. revert A. apply hears_mono. cbn. by right.
        -- left. injection EA as ->. rewrite EP in A. by rewrite app_nil_r.
      * right. left. destruct (has_act_thread _ _ _ _ _ E A) as [B|B]; [done|done].
      * destruct (has_act_thread _ _ _ _ _ E A) as [B|B]; [|by right; right].
        cbn in B. destruct m as [| |es]; try done. left.
        rewrite hears_app. cbn [app hears]. destruct (PS s) as [[EP FL]|(u & EA & _)]; [|done]. rewrite EP.
        apply (pend_survive ho L (World t b q sc ch ts nt pm pc)); [done|unfold due; cbn; lia|]. by left.
    + injection H as <-. cbn in W. rewrite E in W. apply not_in_flight in W. cbn [w_threads] in W.
      assert (PE : forall s', pend s' (with_thread i r ts) = pend s' ts).
      { intros s'. destruct (PS s') as [[-> _]|(u & EA & _)]; done. }
      split; cbn [w_threads w_chan w_queue w_purge] in *; try done.
      * intros s' k P. rewrite PE. unfold due in *. cbn [w_db] in *. destruct (decide (s' = s)) as [->|NS].
        -- rewrite db_set_same in *. right. right. eapply has_act_rest; [done|].
           exists (ASend (XBatchAdd (dict_entries ho s d))). split; [apply SA|]. cbn. apply dict_entries_in; [done|lia].
        -- rewrite db_set_other in * by done. destruct (TD s' k P) as [A|[A|A]]; [by left| |].
           ++ right. left. destruct (has_act_thread _ _ _ _ _ E A) as [B|B]; [by destruct NS|done].
           ++ right. right. destruct (has_act_thread _ _ _ _ _ E A) as [B|B]; done.
      * intros s' u U. apply PI in U. unfold due. cbn [w_db]. destruct (decide (s' = s)) as [->|NS].
        -- by rewrite W in U.
        -- rewrite db_set_other by done. by apply TP.
    + injection H as <-.
      assert (PE : forall s', pend s' (with_thread i r ts) = pend s' ts).
      { intros s'. destruct (PS s') as [[-> _]|(u & EA & _)]; done. }
      assert (DZ : forall k, deadline (slot_flush (b s)) k = 0%N) by done.
      split; cbn [w_threads w_chan w_queue w_purge] in *; try done.
      * intros s' k P. rewrite PE. unfold due in *. cbn [w_db] in *. destruct (decide (s' = s)) as [->|NS].
        -- rewrite db_set_same, DZ in P. lia.
        -- rewrite db_set_other in * by done. destruct (TD s' k P) as [A|[A|A]]; [by left| |].
           ++ right. left. destruct (has_act_thread _ _ _ _ _ E A) as [B|B]; done.
           ++ right. right. destruct (has_act_thread _ _ _ _ _ E A) as [B|B]; done.
      * intros s' u U. apply PI in U. unfold due. cbn [w_db]. destruct (TP s' u U) as [U1 U2]. split; [done|].
        destruct (decide (s' = s)) as [->|NS].
        -- right. by rewrite db_set_same, DZ.
        -- rewrite db_set_other by done. done.
    + destruct sc; [done|]. injection H as <-.
      assert (PE : forall s', pend s' (with_thread i r ts) = pend s' ts).
      { intros s'. destruct (PS s') as [[-> _]|(u & EA & _)]; done. }
      split; cbn [w_threads w_chan w_queue w_purge] in *; try done.
      * intros s' k P. rewrite PE. destruct (TD s' k P) as [A|[A|A]]; [by left| |].
        ++ right. left. destruct (has_act_thread _ _ _ _ _ E A) as [B|B]; done.
        ++ right. right. destruct (has_act_thread _ _ _ _ _ E A) as [B|B]; done.
      * intros s' u U. apply PI in U. by apply TP.
  - (* the scan *)
    destruct sc as [[|e es]|]; [| |done].
    + injection H as <-. eapply tracks_weaken; try done; [cbn; lia|by left|]. destruct pc; cbn in *; try done; lia.
    + destruct (scan_entry t e (b (en_slot e))) as [d' keep] eqn:E. injection H as <-.
      assert (DD : forall s k, deadline (db_set (en_slot e) d' b s) k = deadline (b s) k).
      { intros s k. destruct (decide (s = en_slot e)) as [->|N]; [|by rewrite db_set_other].
        rewrite db_set_same. pose proof (scan_entry_contents t e (b (en_slot e)) k) as S. rewrite E in S. cbn in S.
        unfold deadline. by rewrite S. }
      eapply tracks_weaken; try done; [cbn; lia|left; apply DD| |destruct pc; cbn in *; try done; lia].
      unfold due. cbn [w_db w_queue look w_clock]. intros s k P Q I. destruct keep; [done|]. apply q_remove_in. split; [done|].
      intros X. rewrite DD in P. subst e. cbn in E, P.
      pose proof (scan_entry_drop t (Entry (deadline (b s) k) s k) (b s)) as D. rewrite E in D. cbn in D.
      specialize (D eq_refl eq_refl). lia.
  - destruct sc, nt, ch as [|m ch]; try done. pose proof (recv_in m) as R.
    destruct (recv m q) as [q' note] eqn:E. injection H as <-. cbn [look]. rewrite N.max_0_r.
    split; cbn [w_threads w_chan w_queue w_purge] in *; try done.
    intros s k P. unfold due in *. cbn [w_db] in *. destruct (TD s k P) as [A|[A|A]]; [left|by right; left|by right; right].
    cbn [app hears] in A. revert A. apply hears_mono. intros A.
    replace q' with (fst (recv m q)) by (by rewrite E). by apply R.
  - destruct nt; [|done]. injection H as <-. eapply tracks_weaken; try done; [cbn; lia|by left|].
    destruct pc; cbn in *; try done; lia.
  - unfold purge_step in H. destruct pc as [|now|now e|next| |w]; cbn [w_purge] in TC; cbn [look w_purge w_clock].
    + injection H as <-. eapply tracks_weaken; try done; [cbn; lia|by left|cbn; lia].
    + destruct sc; [done|]. destruct q as [|e q].
      * injection H as <-. eapply tracks_weaken; try done; [cbn; lia|by left].
      * destruct (now <? en_at e)%N eqn:Z; injection H as <-; eapply tracks_weaken; try done; try (cbn; lia); try (by left).
        unfold due. cbn [w_db w_queue]. intros s k P _ I. apply q_remove_in. split; [done|].
        intros X. subst e. cbn in Z. lia.
    + injection H as <-. eapply tracks_weaken; try done; [cbn; lia| |cbn; lia].
      intros s k. unfold due, deadline. cbn [w_db]. destruct (decide (s = en_slot e)) as [->|N]; [|left; by rewrite db_set_other].
      rewrite db_set_same. destruct (purge_entry_cases t e (b (en_slot e))) as [S|(_ & S & O)]; [left; by rewrite S|].
      destruct (decide (k = en_key e)) as [->|N]; [right; by rewrite S|left; by rewrite O].
    + destruct (next =? 0)%N; [|destruct (t <? next)%N]; injection H as <-; eapply tracks_weaken; try done; try (cbn; lia); by left.
    + destruct pm; [|done]. injection H as <-; eapply tracks_weaken; try done; try (cbn; lia); by left.
    + destruct pm; [|done]. injection H as <-; eapply tracks_weaken; try done; try (cbn; lia); by left.
  - destruct pc; try done. injection H as <-; eapply tracks_weaken; try done; try (cbn; lia); by left.
Qed.

Lemma tracks_steps ho evs L x x' :
  horder_ok ho -> tracks ho L x -> in_order ho evs x -> steps ho evs x = Some x' ->
  tracks ho (N.max L (looked ho evs x)) x'.
Proof.
  intros HO. revert L x. induction evs as [|ev evs IH]; intros L x T O H; cbn in H.
  - injection H as <-. cbn. by rewrite N.max_0_r.
  - cbn [in_order looked] in *. destruct O as [W O]. destruct (step ho ev x) as [y|] eqn:E; [|done].
    rewrite N.max_assoc. apply IH; [|done..]. by eapply tracks_step.
Qed.

Lemma tracks_start ho t : tracks ho 0 (w_start t).
Proof. split; cbn; try done; lia. Qed.

Lemma tracks_settled ho L x s k :
  tracks ho L x -> settled x -> (L < due x s k)%N -> In (Entry (due x s k) s k) (w_queue x).
Proof.
  intros T [E1 E2] P. destruct (tr_due _ _ _ T s k P) as [A|[A|A]].
  - by rewrite E1, E2 in A.
  - rewrite E1 in A. by destruct A as (? & ? & [] & _).
  - rewrite E1 in A. by destruct A as (? & ? & [] & _).
Qed.

Lemma background_step_contents ho ev x x' s k :
  step ho ev x = Some x' -> match ev with EWake | ERecv | ENote | EScan => True | _ => False end ->
  stored x' s k = stored x s k.
Proof.
  intros H B. wcase x. destruct ev; try done; cbn in H.
  - destruct sc as [[|e es]|]; [| |done]; [by injection H as <-|].
    pose proof (scan_entry_contents t e (b (en_slot e))) as S.
    destruct (scan_entry t e (b (en_slot e))) as [d' keep]. injection H as <-.
    unfold stored. cbn [w_db]. destruct (decide (s = en_slot e)) as [->|N]; [rewrite db_set_same; apply S|by rewrite db_set_other].
  - destruct sc, nt, ch as [|m ch]; try done. destruct (recv m q). by injection H as <-.
  - destruct nt; [|done]. by injection H as <-.
  - destruct pc; try done. by injection H as <-.
Qed.

Lemma clock_forward_app_3 ho evs evs' x y :
  clock_forward (w_clock x) (evs ++ evs') -> steps ho evs x = Some y -> clock_forward (w_clock y) evs'.
Proof.
  revert x. induction evs as [|ev evs IH]; intros x F H; cbn in H; [by injection H as <-|].
  destruct (step ho ev x) as [z|] eqn:E; [|done]. pose proof (step_clock _ _ _ _ E) as K.
  destruct ev; cbn [app clock_forward] in *; try (rewrite <- K in F; by apply (IH z)).
  destruct F as [L F]. rewrite <- K in F. by apply (IH z).
Qed.
