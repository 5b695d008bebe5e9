(** Background expiry (C43-C47).  The transition system is in Expire.v, the vocabulary in SpecExpire.v. *)
From Verif Require Import ExpireFacts BincodeFacts SimpleFacts DictFacts.
Import ListNotations.

(** Literals for the examples: key "k" with value "v". *)
Definition ex_k : bytes := [x6b].
Definition ex_slot : N := get_slot ex_k.
Definition ex_setx (e : N) : event := ECmd (CWrite (WSet ex_k (SString [x76]) (Specific e) NxXx_None)).
Definition ex_expire (e : N) : event := ECmd (CWrite (WExpire ex_k e NxXx_None GtLt_None)).
Definition ex_world (evs : list event) : option world := steps horder_default evs (w_start 1000).

(** What can be observed of the result of an execution. *)
Lemma run_shows {A} (f : world -> A) (evs : list event) (v : A) :
  option_map f (ex_world evs) = Some v -> exists x, ex_world evs = Some x /\ f x = v.
Proof. destruct (ex_world evs) as [x|]; cbn; [|done]. intros [= <-]. by exists x. Qed.
Opaque ex_world.
Ltac run_with f evs :=
  let H := fresh in let x := fresh "x" in
  eassert (H : option_map f (ex_world evs) = Some _) by (vm_compute; reflexivity);
  apply run_shows in H as (x & ? & H); cbv beta in H;
  repeat match type of H with (_, _) = (_, _) => apply pair_equal_spec in H as [H ?] end.
Ltac shown := lazymatch goal with
  | |- _ /\ _ => split; [shown|shown]
  | |- settled _ => split; assumption
  | |- unattended _ => split; assumption
  | |- clock_forward _ _ => cbn; lia
  | |- _ => first [assumption | congruence
                  | rewrite <- elem_of_list_In; eapply bool_decide_eq_false_1; eassumption
                  | vm_compute; reflexivity ]
  end.
Definition ex_v (s : bytes) : data := DScalar (SString s).

(** ** C43: the purge removes no live data *)

(** Proved for clocks that never step back: no step of the purge task, of the receive task or of the scan
    changes what is stored under any key of any slot (data and deadline), in any execution. *)
Theorem C43_forward_clock_partial (ho : horder) (t : N) (evs : list event) (ev : event) (x x' : world)
    (s : N) (k : bytes) :
  clock_forward t evs -> steps ho evs (w_start t) = Some x ->
  In ev [EPurge; EWake; ERecv; ENote; EScan] -> step ho ev x = Some x' ->
  stored x' s k = stored x s k.
Proof.
  intros F H I E.
  pose proof (safe_steps _ _ _ _ _ (safe_start t) H) as S. cbn [w_start w_clock] in S.
  pose proof (forward_peak ho evs (w_start t) x F H) as P. cbn [w_start w_clock] in P. rewrite P in S.
  assert (T : (t <= w_clock x)%N) by (rewrite <- P; apply peak_ge).
  rewrite N.max_r in S by lia.
  destruct I as [<-|I].
  - destruct (purge_contents ho x x' _ s k S E) as [A|(d & e & _ & _ & L1 & L2)]; [done|lia].
  - destruct I as [<-|[<-|[<-|[<-|[]]]]]; by eapply background_step_contents.
Qed.
Print Assumptions C43_forward_clock_partial.

(** For every clock: what a purge step removes had a deadline that the clock had already reached. *)
Theorem C43_any_clock (ho : horder) (t : N) (evs : list event) (x x' : world) (s : N) (k : bytes) :
  steps ho evs (w_start t) = Some x -> step ho EPurge x = Some x' ->
  stored x' s k = stored x s k \/
  exists y e, stored x s k = Some (y, e) /\ (0 < e <= peak t evs)%N /\ stored x' s k = None.
Proof.
  intros H E. pose proof (safe_steps _ _ _ _ _ (safe_start t) H) as S. cbn [w_start w_clock] in S.
  pose proof (peak_ge t evs) as G. rewrite N.max_r in S by lia.
  destruct (purge_contents ho x x' _ s k S E) as [A|(d & e & A & B & L1 & L2)]; [by left|right]. by exists d, e.
Qed.
Print Assumptions C43_any_clock.

(** A purge that meets a queued entry whose key is still there. *)
Example C43_case :
  exists x, ex_world [ex_setx 1500; EThread 0; ERecv; ENote; ETick 1600; EPurge; EPurge] = Some x /\
    w_purge x = PEntry 1600 (Entry 1500 ex_slot ex_k) /\ step horder_default EPurge x <> None /\
    stored x ex_slot ex_k = Some (ex_v [x76], 1500%N).
Proof.
  run_with (fun x => (w_purge x, bool_decide (option_map w_clock (step horder_default EPurge x) = None), stored x ex_slot ex_k))
    [ex_setx 1500; EThread 0; ERecv; ENote; ETick 1600; EPurge; EPurge].
  match goal with H : bool_decide _ = false |- _ => apply bool_decide_eq_false_1 in H end.
  exists x. split; [assumption|]. split; [assumption|]. split; [|assumption]. intros E. rewrite E in *. done.
Qed.

(** The claim is false for clocks that step back: a key that is alive is removed. *)
Theorem C43_clock_back_refuted :
  exists evs x x', ex_world evs = Some x /\ step horder_default EPurge x = Some x' /\
    view (w_clock x) (w_db x ex_slot) ex_k = Some (ex_v [x76], 1500%N) /\
    stored x' ex_slot ex_k = None.
Proof.
  exists [ex_setx 1500; EThread 0; ERecv; ENote; ETick 1600; EPurge; EPurge; ETick 1400].
  run_with (fun x => (view (w_clock x) (w_db x ex_slot) ex_k,
                      option_map (fun x' => stored x' ex_slot ex_k) (step horder_default EPurge x)))
    [ex_setx 1500; EThread 0; ERecv; ENote; ETick 1600; EPurge; EPurge; ETick 1400].
  destruct (step horder_default EPurge x) as [x'|] eqn:E; [|done]. cbn [option_map] in *.
  exists x, x'. shown.
Qed.
Print Assumptions C43_clock_back_refuted.

(** And "never alters" is false for the access statistics, also with a steady clock: a stale entry makes
    the purge count as an access to the live key. *)
Theorem C43_statistics_refuted :
  exists evs x x', clock_forward 1000 evs /\ ex_world evs = Some x /\ step horder_default EPurge x = Some x' /\
    view (w_clock x) (w_db x ex_slot) ex_k = Some (ex_v [x76], 0%N) /\
    inner (w_db x' ex_slot) !! ex_k <> inner (w_db x ex_slot) !! ex_k.
Proof.
  exists [ex_setx 1500; EThread 0; ERecv; ENote; ETick 1600; ex_setx 0; EPurge; EPurge].
  run_with (fun x => (view (w_clock x) (w_db x ex_slot) ex_k, inner (w_db x ex_slot) !! ex_k,
                      option_map (fun x' => inner (w_db x' ex_slot) !! ex_k) (step horder_default EPurge x)))
    [ex_setx 1500; EThread 0; ERecv; ENote; ETick 1600; ex_setx 0; EPurge; EPurge].
  destruct (step horder_default EPurge x) as [x'|] eqn:E; [|done]. cbn [option_map] in *.
  exists x, x'. shown.
Qed.
Print Assumptions C43_statistics_refuted.

(** ** C44: expired data stays *)

(** No execution of the background tasks ever removes a stored key, expired or not. *)
Theorem C44_nothing_is_purged (ho : horder) (t : N) (evs evs' : list event) (x x' : world) (s : N) (k : bytes) :
  clock_forward t (evs ++ evs') -> steps ho evs (w_start t) = Some x -> w_threads x = [] ->
  Forall background evs' -> steps ho evs' x = Some x' ->
  stored x' s k = stored x s k.
Proof.
  intros F H T B H'.
  assert (F1 : clock_forward t evs) by (by eapply clock_forward_app).
  pose proof (safe_steps _ _ _ _ _ (safe_start t) H) as S. cbn [w_start w_clock] in S.
  pose proof (forward_peak ho evs (w_start t) x F1 H) as P. cbn [w_start w_clock] in P. rewrite P in S.
  assert (L : (t <= w_clock x)%N) by (rewrite <- P; apply peak_ge).
  rewrite N.max_r in S by lia.
  eapply background_keeps; try done. eapply (clock_forward_app_3 ho evs evs' (w_start t)); done.
Qed.
Print Assumptions C44_nothing_is_purged.

(** The claim is false: a key that expired at 1500, with its entry delivered to the queue, is kept by every
    continuation in which only the background tasks run, however long and however late. *)
Theorem C44_eventually_purged_refuted :
  exists evs x, clock_forward 1000 evs /\ ex_world evs = Some x /\ settled x /\
    In (Entry 1500 ex_slot ex_k) (w_queue x) /\ (1500 <= w_clock x)%N /\
    forall evs' x', Forall background evs' -> clock_forward (w_clock x) evs' ->
      steps horder_default evs' x = Some x' -> stored x' ex_slot ex_k = Some (ex_v [x76], 1500%N).
Proof.
  exists [ex_setx 1500; EThread 0; ERecv; ENote; ETick 1600].
  run_with (fun x => (w_threads x, w_chan x, w_queue x, w_clock x, stored x ex_slot ex_k))
    [ex_setx 1500; EThread 0; ERecv; ENote; ETick 1600].
  match goal with H : w_queue x = _ |- _ => rename H into Q end.
  match goal with H : w_clock x = _ |- _ => rename H into C end.
  match goal with H : stored x _ _ = _ |- _ => rename H into ST end.
  exists x. split; [cbn; lia|]. split; [assumption|]. split; [shown|].
  split; [rewrite Q; by left|]. split; [rewrite C; done|].
  intros evs' x' B F HS. etransitivity; [|exact ST].
  apply (C44_nothing_is_purged horder_default 1000 [ex_setx 1500; EThread 0; ERecv; ENote; ETick 1600] evs' x x'); try done.
  rewrite C in F. cbn [app clock_forward ex_setx]. split; [lia|]. exact F.
Qed.
Print Assumptions C44_eventually_purged_refuted.
(** The continuations are not empty: the purge pops the entry of the key and goes back to sleep. *)
Example C44_case :
  exists x, ex_world [ex_setx 1500; EThread 0; ERecv; ENote; ETick 1600; EPurge; EPurge; EPurge; EPurge; EPurge] = Some x /\
    w_queue x = [] /\ w_purge x = PIdle /\ stored x ex_slot ex_k = Some (ex_v [x76], 1500%N).
Proof.
  run_with (fun x => (w_queue x, w_purge x, stored x ex_slot ex_k))
    [ex_setx 1500; EThread 0; ERecv; ENote; ETick 1600; EPurge; EPurge; EPurge; EPurge; EPurge].
  exists x. shown.
Qed.

(** ** C45: every deadline is tracked *)

(** Any execution from the start with in-order delivery, any clock: once everything is delivered, every
    stored deadline later than all instants at which the purge or the scan looked is in the queue. *)
Theorem C45_deadlines_tracked (ho : horder) (t : N) (evs : list event) (x : world) (s : N) (k : bytes) :
  horder_ok ho -> in_order ho evs (w_start t) -> steps ho evs (w_start t) = Some x -> settled x ->
  (looked ho evs (w_start t) < due x s k)%N ->
  In (Entry (due x s k) s k) (w_queue x).
Proof.
  intros HO O H S P. apply (tracks_settled ho (N.max 0 (looked ho evs (w_start t)))); [|done|lia].
  by eapply tracks_steps; [|apply tracks_start|..].
Qed.
Print Assumptions C45_deadlines_tracked.
(** A write, a purge, a second deadline, a flush and a snapshot. *)
Definition ex_snap (e : N) : dict := Dict 7 {[ ex_k := Value (ex_v [x77]) e 0 ]}.
Example C45_case :
  let evs := [ex_setx 1500; EThread 0; ERecv; ENote; EPurge; EPurge; ex_expire 2500; EThread 0; ERecv;
              EReplace 3 (ex_snap 9000); EThread 0; ERecv; EThread 0; EThread 0; ERecv; ENote] in
  exists x, ex_world evs = Some x /\ settled x /\ due x ex_slot ex_k = 2500%N /\ due x 3 ex_k = 9000%N /\
    looked horder_default evs (w_start 1000) = 1000%N.
Proof.
  cbn zeta.
  run_with (fun x => (w_threads x, w_chan x, due x ex_slot ex_k, due x 3 ex_k))
    [ex_setx 1500; EThread 0; ERecv; ENote; EPurge; EPurge; ex_expire 2500; EThread 0; ERecv;
              EReplace 3 (ex_snap 9000); EThread 0; ERecv; EThread 0; EThread 0; ERecv; ENote].
  exists x. shown.
Qed.
Example C45_case_in_order : in_order horder_default [ex_setx 1500; EThread 0; ex_expire 2500; EThread 0] (w_start 1000).
Proof.
  assert (A : forall l, bool_decide (l = @nil (list act)) = true -> forall x s, w_threads x = l -> ~ in_flight x s).
  { intros l L x s E (t & u & I & _). apply bool_decide_eq_true in L. rewrite E, L in I. done. }
  cbn [in_order waits ex_setx ex_expire]. split; [by apply (A [])|].
  assert (T1 : option_map w_threads (step horder_default (ex_setx 1500) (w_start 1000)) =
    Some [[ASend (XUpdate ex_slot (ExpUpdate ex_k 0 1500))]]) by (vm_compute; reflexivity).
  unfold ex_setx in T1. destruct (step horder_default _ (w_start 1000)) as [x1|]; [|done]. cbn [in_order waits].
  injection T1 as T1. split; [by rewrite T1|].
  destruct (step horder_default (EThread 0) x1) as [x2|] eqn:E2; [|done]. cbn [in_order waits].
  assert (T2 : w_threads x2 = []).
  { destruct x1. cbn in T1. subst. cbn in E2. by injection E2 as <-. }
  split; [by apply (A [])|].
  destruct (step horder_default _ x2) as [x3|] eqn:E3; [|done]. cbn [in_order waits].
  split; [|by destruct (step horder_default (EThread 0) x3)].
  destruct x2. cbn in T2. subst. cbn -[db_write] in E3. destruct (db_write _ _ _) as [b' o] eqn:W. injection E3 as <-. cbn [w_threads].
  unfold db_write in W. destruct (slot_write _ _ _ _) as [d' o'] eqn:SW. injection W as <- <-.
  apply slot_write_notified in SW as [_ [[-> _]|(u & -> & _)]]; done.
Qed.

(** A scan left to itself (at one instant): it ends, changes no data, and of the entries it was given exactly those stay whose key is
    visible with that deadline; the other entries of the queue stay. *)
Theorem C45_scan ho es : forall x, w_scan x = Some es -> exists x', steps ho (repeat EScan (S (length es))) x = Some x' /\
  w_scan x' = None /\ (forall s k, stored x' s k = stored x s k) /\
  forall e, In e (w_queue x') <-> In e (w_queue x) /\
    (In e es -> exists y, view (w_clock x) (w_db x (en_slot e)) (en_key e) = Some (y, en_at e)).
Proof.
  induction es as [|e es IH]; intros [t b q sc ch ts nt pm pc] H; cbn [w_scan] in H; subst sc.
  - eexists. split; [reflexivity|]. split; [done|]. split; [done|]. intros e. cbn. tauto.
  - change (repeat EScan (S (length (e :: es)))) with (EScan :: repeat EScan (S (length es))). cbn [steps step].
    assert (SE : (forall k, contents (fst (scan_entry t e (b (en_slot e)))) k = contents (b (en_slot e)) k) /\
      (snd (scan_entry t e (b (en_slot e))) = true <-> exists y, view t (b (en_slot e)) (en_key e) = Some (y, en_at e))).
    { split; [intros k; apply scan_entry_contents|]. unfold scan_entry.
      destruct (dict_get_case t (en_key e) (b (en_slot e))) as [v E A V|V]; cbn [snd].
      - rewrite V. cbn. rewrite N.eqb_eq. split; [intros ->; by eexists|]. intros (y & Y). by injection Y.
      - rewrite V. split; [done|]. by intros (y & Y). }
    destruct (scan_entry t e (b (en_slot e))) as [d' keep]. destruct SE as [SC SK]. cbn [fst snd] in SC, SK.
    destruct (IH (World t (db_set (en_slot e) d' b) (if keep then q else q_remove e q) (Some es) ch ts nt pm pc) eq_refl) as (x' & X & X1 & X2 & X3).
    exists x'. split; [exact X|]. split; [done|].
    assert (CC : forall s k, contents (db_set (en_slot e) d' b s) k = contents (b s) k).
    { intros s k. unfold db_set. destruct (N.eqb_spec s (en_slot e)) as [->|N]; [apply SC|done]. }
    split; [intros s k; rewrite X2; apply CC|]. intros f. rewrite X3. cbn [w_queue w_clock w_db].
    assert (VV : forall s k, view t (db_set (en_slot e) d' b s) k = view t (b s) k) by (intros s k; unfold view; by rewrite CC).
    rewrite VV. cbn [In]. clear X X1 X2 X3 IH CC VV SC. destruct keep.
    + split; [|intuition]. intros [F G]. split; [done|]. intros [->|I]; [by apply SK|by apply G].
    + rewrite q_remove_in. split.
      * intros [[F N] G]. split; [done|]. intros [->|I]; [done|by apply G].
      * intros [F G]. split; [|by intuition]. split; [done|]. intros ->. assert (C : false = true) by (apply SK, G; by left). done.
Qed.
Print Assumptions C45_scan.
(** The queue has entries for two deadlines of the key, of which the first has been moved: the entry of the second stays. *)
Example C45_scan_case :
  let b := fst (db_cmd horder_default 1000 (CWrite (WSet ex_k (SString [x76]) (Specific 2500) NxXx_None)) db_empty) in
  let es := [Entry 1500 ex_slot ex_k; Entry 2500 ex_slot ex_k; Entry 9000 ex_slot ex_k] in
  option_map w_queue (steps horder_default (repeat EScan 4) (World 1000 b es (Some es) [] [] false false PStart)) = Some [Entry 2500 ex_slot ex_k].
Proof. vm_compute. reflexivity. Qed.

(** ** C46: no oversleeping *)

(** In every execution, whenever the purge task sleeps until [w] and no wake-up is pending, no queued
    deadline is earlier than [w]; when it waits without a deadline the queue is empty. *)
Theorem C46_sleep (ho : horder) (t : N) (evs : list event) (x : world) :
  steps ho evs (w_start t) = Some x -> unattended x ->
  (forall w e, w_purge x = PSleep w -> In e (w_queue x) -> (w <= en_at e)%N) /\
  (w_purge x = PIdle -> w_queue x = []).
Proof.
  intros H U. destruct (rested_steps ho evs (w_start t) x) as [_ R]; [constructor|by intros _|done|].
  specialize (R U). split.
  - intros w e E I. rewrite E in R. rewrite List.Forall_forall in R. by apply R.
  - intros E. by rewrite E in R.
Qed.
Print Assumptions C46_sleep.
(** Together with C45: with in-order delivery a sleeping purge task sleeps past no deadline. *)
Theorem C46_sleep_in_order (ho : horder) (t : N) (evs : list event) (x : world) (s : N) (k : bytes) (w : N) :
  horder_ok ho -> in_order ho evs (w_start t) -> steps ho evs (w_start t) = Some x -> settled x -> unattended x ->
  w_purge x = PSleep w -> (looked ho evs (w_start t) < due x s k)%N -> (w <= due x s k)%N.
Proof.
  intros HO O H S U E P. destruct (C46_sleep ho t evs x H U) as [A _].
  apply (A w (Entry (due x s k) s k) E). by eapply C45_deadlines_tracked.
Qed.
Print Assumptions C46_sleep_in_order.
(** Asleep until 1500; a deadline of 1200 arrives between the decision to sleep and the sleep. *)
Example C46_case :
  (exists x, ex_world [ex_setx 1500; EThread 0; ERecv; EPurge; EPurge; EPurge; ENote; EPurge; EPurge; EPurge; EPurge] = Some x /\
     w_purge x = PSleep 1500 /\ unattended x /\ w_queue x = [Entry 1500 ex_slot ex_k]) /\
  (exists x, ex_world [ex_setx 1500; EThread 0; ERecv; ENote; EPurge; EPurge; ex_expire 1200; EThread 0; ERecv; ENote; EPurge] = Some x /\
     w_purge x = PSleep 1500 /\ w_permit x = true /\ w_queue x = [Entry 1200 ex_slot ex_k]).
Proof.
  split.
  - run_with (fun x => (w_purge x, w_permit x, w_note x, w_queue x))
      [ex_setx 1500; EThread 0; ERecv; EPurge; EPurge; EPurge; ENote; EPurge; EPurge; EPurge; EPurge].
    exists x. shown.
  - run_with (fun x => (w_purge x, w_permit x, w_queue x))
      [ex_setx 1500; EThread 0; ERecv; ENote; EPurge; EPurge; ex_expire 1200; EThread 0; ERecv; ENote; EPurge].
    exists x. shown.
Qed.

(** ** C47: racing writers *)

(** Two EXPIRE commands on one key; the notification of the first is sent after the one of the second.
    The key ends with deadline 2000, nobody has purged or scanned anything, and the queue does not
    contain the deadline. *)
Theorem C47_racing_writers_refuted :
  exists evs x, clock_forward 1000 evs /\ ex_world evs = Some x /\ settled x /\
    looked horder_default evs (w_start 1000) = 0%N /\
    due x ex_slot ex_k = 2000%N /\ ~ In (Entry 2000 ex_slot ex_k) (w_queue x).
Proof.
  exists [ex_setx 2000; EThread 0; ERecv; ENote; ex_expire 3000; ex_expire 2000; EThread 1; EThread 0; ERecv; ERecv].
  run_with (fun x => (w_threads x, w_chan x, due x ex_slot ex_k, bool_decide (Entry 2000 ex_slot ex_k ∈ w_queue x)))
    [ex_setx 2000; EThread 0; ERecv; ENote; ex_expire 3000; ex_expire 2000; EThread 1; EThread 0; ERecv; ERecv].
  exists x. shown.
Qed.
Print Assumptions C47_racing_writers_refuted.

(** A snapshot that is installed while a notification is on its way loses deadlines in the same way. *)
Theorem C47_racing_snapshot_refuted :
  exists evs x, clock_forward 1000 evs /\ ex_world evs = Some x /\ settled x /\
    looked horder_default evs (w_start 1000) = 0%N /\
    due x ex_slot ex_k = 2000%N /\ ~ In (Entry 2000 ex_slot ex_k) (w_queue x).
Proof.
  exists [ex_setx 2000; EThread 0; ERecv; ENote; ex_expire 3000; EReplace ex_slot (ex_snap 2000);
          EThread 1; EThread 1; EThread 1; EThread 0; ERecv; ERecv; ENote; ERecv].
  run_with (fun x => (w_threads x, w_chan x, due x ex_slot ex_k, bool_decide (Entry 2000 ex_slot ex_k ∈ w_queue x)))
    [ex_setx 2000; EThread 0; ERecv; ENote; ex_expire 3000; EReplace ex_slot (ex_snap 2000);
          EThread 1; EThread 1; EThread 1; EThread 0; ERecv; ERecv; ENote; ERecv].
  exists x. shown.
Qed.
Print Assumptions C47_racing_snapshot_refuted.
