(** The connection limit (C62) and the absence of deadlocks (C66). *)
From Verif Require Import BytesFacts SpecLocks LockFacts.
Local Open Scope nat_scope.

(** ** C62 *)

(** In every execution: never more handlers than [max]. *)
Theorem C62_limit max evs x : lsteps evs (limit_new max) = Some x -> (handlers_alive x <= max)%N.
Proof. intros H. pose proof (lo_max max x (lsteps_ok max evs _ _ H (limit_new_ok max))). lia. Qed.
(** No permit is lost or duplicated while the listener runs. *)
Theorem C62_conserved max evs x :
  lsteps evs (limit_new max) = Some x -> lm_phase x <> LDown ->
  (lm_permits x + handlers_alive x + in_flight x = max)%N.
Proof. intros H. apply (lo_sum max x (lsteps_ok max evs _ _ H (limit_new_ok max))). Qed.
(** Every handler can end at any time and in any manner, and that frees exactly one permit and ends exactly
    that handler. *)
Theorem C62_end_frees max evs x h how :
  lsteps evs (limit_new max) = Some x -> In h (lm_handlers x) ->
  exists x', lstep (HEnd h how) x = Some x' /\ lm_permits x' = (lm_permits x + 1)%N /\
    handlers_alive x = (handlers_alive x' + 1)%N /\ lm_phase x' = lm_phase x /\
    forall g, In g (lm_handlers x') <-> In g (lm_handlers x) /\ g <> h.
Proof.
  intros H I. pose proof (lsteps_ok max evs _ _ H (limit_new_ok max)) as O. destruct x as [p ph hs nx].
  pose proof (filter_out h hs (lo_nodup _ _ O) I) as L.
  assert (E : existsb (N.eqb h) hs = true) by (apply existsb_exists; exists h; split; [done|apply N.eqb_refl]).
  eexists. cbn [lstep]. rewrite E. split; [done|]. cbn [lm_permits lm_phase lm_handlers]. split; [done|].
  split; [unfold handlers_alive; cbn [lm_handlers]; lia|]. split; [done|]. intros g. rewrite filter_In.
  destruct (N.eqb_spec h g) as [Q|Q]; cbn; split; intros [A B]; try done; split; congruence.
Qed.
(** The listener waits only when the limit is reached. *)
Theorem C62_waits max evs x :
  lsteps evs (limit_new max) = Some x -> lm_phase x = LWait ->
  (lstep LAcquire x = None <-> handlers_alive x = max).
Proof.
  intros H P. pose proof (lo_sum max x (lsteps_ok max evs _ _ H (limit_new_ok max))) as S.
  rewrite P in S. specialize (S ltac:(done)). destruct x as [p ph hs nx]. cbn in P. subst ph.
  unfold in_flight in S. cbn [lm_phase lm_permits lm_handlers] in *. cbn [lstep]. destruct (N.eqb_spec p 0) as [Q|Q]; split; intros E; try done; lia.
Qed.
Example C62_case :
  option_map (fun x => (lm_permits x, lm_handlers x, lm_phase x))
    (lsteps [LAcquire; LAccepted; LAcquire; LRefused; LWake; LAccepted; HEnd 0 HPanic; LAcquire] (limit_new 2)) =
    Some (0%N, [1%N], LAccept 1) /\
  lsteps [LAcquire; LAccepted; LAcquire; LAccepted; LAcquire] (limit_new 2) = None.
Proof. by vm_compute. Qed.
Print Assumptions C62_limit.
Print Assumptions C62_conserved.
Print Assumptions C62_end_frees.
Print Assumptions C62_waits.

(** ** C66 *)

(** In every execution no set of tasks waits for itself (a single task waiting for its own lock included). *)
Theorem C66_no_deadlock evs ts D : jsteps evs [] = Some ts -> ~ deadlock ts D.
Proof. intros H. apply no_deadlock. exact (jsteps_ok evs _ _ H tasks_start). Qed.
(** No lock ever has two holders. *)
Theorem C66_exclusive evs ts : jsteps evs [] = Some ts -> exclusive ts.
Proof. intros H. exact (proj1 (jsteps_ok evs _ _ H tasks_start)). Qed.
(** As long as some task has work left, some task can take a step. *)
Theorem C66_progress evs ts :
  jsteps evs [] = Some ts -> (exists t, In t ts /\ tk_todo t <> []) -> exists i ts', jstep (JRun i) ts = Some ts'.
Proof. intros H. apply progress. exact (jsteps_ok evs _ _ H tasks_start). Qed.
(** Every run without new tasks is finite, and from every state one leads to the end of all tasks, with all
    locks free. *)
Theorem C66_all_finish evs ts :
  jsteps evs [] = Some ts -> exists is ts', jsteps (map JRun is) ts = Some ts' /\ Forall finished ts'.
Proof. intros H. apply all_finish. exact (jsteps_ok evs _ _ H tasks_start). Qed.
(** Any maximal run without new tasks ends with all tasks finished: the order in which waiting tasks get a
    lock does not matter. *)
Theorem C66_any_schedule evs ts is ts' :
  jsteps evs [] = Some ts -> jsteps (map JRun is) ts = Some ts' -> (forall i, jstep (JRun i) ts' = None) ->
  Forall finished ts'.
Proof.
  intros H R M. pose proof (jsteps_ok _ _ _ R (jsteps_ok evs _ _ H tasks_start)) as O. apply List.Forall_forall. intros t I.
  destruct (tk_todo t) eqn:E.
  - split; [done|]. destruct O as [_ D]. specialize (D t I). by rewrite E in D.
  - destruct (progress ts' O) as (i & u & S); [exists t; split; [done|by rewrite E]|]. by rewrite M in S.
Qed.
(** ... and it is never longer than the work left. *)
Theorem C66_bounded is : forall ts ts', jsteps (map JRun is) ts = Some ts' -> length is <= list_sum (map (fun t => length (tk_todo t)) ts).
Proof.
  induction is as [|i is IH]; intros ts ts' R; cbn [map jsteps length] in *; [lia|].
  destruct (jstep (JRun i) ts) as [u|] eqn:E; [|done]. apply jrun_work in E. specialize (IH u ts' R). unfold work in E. lia.
Qed.
(** A scan holding the queue waits for a command's slot, and a purge waits for the queue; all end. *)
Example C66_case :
  let st := [JStart (JCmd [7%N]); JStart (JScan [7%N; 9%N]); JStart (JPurge [9%N]); JRun 0; JRun 1] in
  option_map (map tk_held) (jsteps st []) = Some [[KSlot 7]; [KQueue]; []] /\
  jsteps (st ++ [JRun 1]) [] = None /\ jsteps (st ++ [JRun 2]) [] = None /\
  option_map (map tk_todo) (jsteps (st ++ map JRun [0; 1; 1; 1; 1; 1; 2; 2; 2; 2; 2; 2]) []) = Some [[]; []; []].
Proof. by vm_compute. Qed.
Print Assumptions C66_no_deadlock.
Print Assumptions C66_exclusive.
Print Assumptions C66_progress.
Print Assumptions C66_all_finish.
Print Assumptions C66_any_schedule.
Print Assumptions C66_bounded.
