(** C115: background expiry in a whole server, with its connections. *)
From Verif Require Export BackFacts.
From Verif Require Import ExpireFacts.
From Verif Require PropExpire ProcessFacts.
From Coq Require Import Sorted.

(** ** The server runs the transition system of Expire.v *)
(** Every execution of a server that starts empty, whatever its clients send and however its tasks are scheduled, is an
    execution of Expire.v with the same readings of the clock: same data, queue, channel, scan, stored permit and purge task. *)
Theorem C115_same_world en ins evs x t : leader_steps en evs (leader_start db_empty ins) = Some x ->
  exists wevs w, steps (e_ho en) wevs (w_start t) = Some w /\ same_world x w /\ ticks wevs = map fst evs.
Proof.
  intros H. destruct (mirror_steps en evs _ x _ (same_start db_empty ins t eq_refl) H) as (wevs & w & S & W & T & _). by exists wevs, w.
Qed.
Print Assumptions C115_same_world.

(** ** The purge task does not oversleep *)
Theorem C115_sleep en ins evs x : leader_steps en evs (leader_start db_empty ins) = Some x -> undisturbed x ->
  (forall w e, ld_purge x = PSleep w -> In e (ld_queue x) -> (w <= en_at e)%N) /\ (ld_purge x = PIdle -> ld_queue x = []).
Proof.
  intros H [U1 U2]. destruct (C115_same_world en ins evs x 0%N H) as (wevs & w & S & W & _). destruct (PropExpire.C46_sleep _ _ _ _ S) as [A B].
  { split; [by rewrite (sw_permit _ _ W)|by rewrite (sw_note _ _ W)]. }
  rewrite (sw_purge _ _ W), (sw_queue _ _ W) in *. done.
Qed.
Print Assumptions C115_sleep.

(** ** Nothing alive is removed by the background tasks *)
(** A server in the middle of a turn of one of its tasks. *)
Definition as_world (now : N) (x : leader) : world :=
  World now (cs_db (ld_cl x)) (ld_queue x) (ld_scan x) (cs_exp (ld_cl x)) (repeat [AScan] (ld_scans x)) (ld_note x) (ld_permit x) (ld_purge x).
Lemma as_world_safe en ins evs x now : leader_steps en evs (leader_start db_empty ins) = Some x ->
  exists P, safe P (as_world now x) /\ (P = 0%N \/ In P (map fst evs ++ [now])).
Proof.
  intros H. destruct (C115_same_world en ins evs x 0%N H) as (wevs & w & S & W & T).
  assert (S0 : steps (e_ho en) (wevs ++ [ETick now]) (w_start 0) =
    Some (World now (w_db w) (w_queue w) (w_scan w) (w_chan w) (w_threads w) (w_note w) (w_permit w) (w_purge w))) by (rewrite (steps_split _ _ _ _ _ S); by destruct w).
  pose proof (safe_steps _ _ _ _ _ (safe_start 0) S0) as F. cbn [w_start w_clock] in F. rewrite N.max_0_l in F. exists (peak 0 (wevs ++ [ETick now])). split.
  - destruct F as [F1 F2 F3 F4 F5]. cbn [w_clock w_queue w_chan w_threads w_purge] in *. rewrite (sw_queue _ _ W) in F2. rewrite (sw_chan _ _ W) in F3. rewrite (sw_purge _ _ W) in F5.
    split; try done. apply List.Forall_forall. intros t I. apply repeat_spec in I as ->. by repeat constructor.
  - destruct (ticks_peak 0 (wevs ++ [ETick now])) as [E|E]; [by left|right]. unfold ticks in *. rewrite flat_map_app, T in E. done.
Qed.
Lemma task_contents en now u x x' s k : leader_step en (now, u) x = Some x' -> (forall i, u <> LConn i) -> u <> LPurge -> kept x' s k = kept x s k.
Proof.
  intros H NC NP. destruct x as [[b xs fw ks] q sc n nt pm pc].
  assert (T : forall e, In e [EScan; ERecv; ENote; EWake] -> task_step (e_ho en) now e (Leader (Clients b xs fw ks) q sc n nt pm pc) = Some x' ->
    kept x' s k = contents (b s) k).
  { intros e I T. unfold task_step in T. destruct (step _ e _) as [w1|] eqn:S; [|done]. eapply (background_step_contents _ _ _ _ s k) in S.
    - destruct w1. by injection T as <-.
    - by destruct I as [<-|[<-|[<-|[<-|[]]]]]. }
  destruct u as [i| | | | | | |]; cbn [leader_step snd fst turn_event] in H; try done.
  - by destruct (NC i).
  - unfold task_step in H. cbn [step] in H. destruct n as [|n]; [done|]. cbn [repeat nth_error] in H. destruct sc; [done|]. by injection H as <-.
  - by apply (T EScan); [left|].
  - by apply (T ERecv); [right; left|].
  - by apply (T ENote); [right; right; left|].
  - by apply (T EWake); [right; right; right; left|].
  - destruct (cs_fwd _); [done|]. by injection H as <-.
Qed.
(** Any clock: the only thing that a background task ever removes is a key whose deadline lies ahead but had been reached by an
    earlier reading of the clock. *)
Theorem C115_any_clock en ins evs x now u x' s k : leader_steps en evs (leader_start db_empty ins) = Some x ->
  (forall i, u <> LConn i) -> leader_step en (now, u) x = Some x' ->
  kept x' s k = kept x s k \/
  exists y e t, u = LPurge /\ kept x s k = Some (y, e) /\ kept x' s k = None /\ In t (map fst evs) /\ (now < e <= t)%N.
Proof.
  intros H NC E. assert (D : u = LPurge \/ u <> LPurge) by (destruct u; first [by left|by right]). destruct D as [->|D]; [|left; by eapply task_contents].
  destruct (as_world_safe en ins evs x now H) as (P & SP & IP).
  assert (T : exists w1, step (e_ho en) EPurge (as_world now x) = Some w1 /\ w_db w1 = cs_db (ld_cl x')).
  { destruct x as [[b xs fw ks] q sc n nt pm pc]. cbn [leader_step snd fst turn_event] in E. unfold task_step in E. unfold as_world. cbn [ld_cl cs_db cs_exp ld_queue ld_scan ld_scans ld_note ld_permit ld_purge].
    destruct (step _ EPurge _) as [w1|]; [|done]. exists w1. split; [done|]. destruct w1. by injection E as <-. }
  destruct T as (w1 & S1 & D1). destruct (purge_contents _ _ _ _ s k SP S1) as [A|(y & e & A & B & L1 & L2)]; unfold stored in *; rewrite D1 in *; [by left|right].
  exists y, e, P. cbn [as_world w_clock] in L2. repeat (split; [done|]). split; [|lia]. destruct IP as [->|IP]; [lia|]. apply in_app_or in IP as [IP|[IP|[]]]; [done|lia].
Qed.
Print Assumptions C115_any_clock.
(** So with a clock that does not step back they change nothing of what is stored. *)
Theorem C115_background_keeps en ins evs x now u x' s k : leader_steps en evs (leader_start db_empty ins) = Some x ->
  (forall i, u <> LConn i) -> leader_step en (now, u) x = Some x' -> StronglySorted N.le (map fst evs ++ [now]) -> kept x' s k = kept x s k.
Proof.
  intros H NC E ST. destruct (C115_any_clock _ _ _ _ _ _ _ s k H NC E) as [A|(y & e & t & _ & _ & _ & I & L)]; [done|].
  pose proof (ClientsFacts.sorted_app_last now (map fst evs) t ST ltac:(apply in_or_app; by left)). lia.
Qed.
Print Assumptions C115_background_keeps.

(** ** Every deadline is queued *)
(** If writes do not overtake notifications: once everything has been said and heard, every stored deadline later than what the
    background tasks have compared with the clock is in the queue. *)
Theorem C115_tracked en ins evs x s k : horder_ok (e_ho en) -> leader_steps en evs (leader_start db_empty ins) = Some x ->
  all_polite en evs (leader_start db_empty ins) -> all_told x -> (glances en evs (leader_start db_empty ins) < kept_until x s k)%N ->
  In (Entry (kept_until x s k) s k) (ld_queue x).
Proof.
  intros HO H AP (Q1 & Q2 & Q3) L. destruct (mirror_steps en evs _ x _ (same_start db_empty ins 0%N eq_refl) H) as (wevs & w & S & W & _ & O & LK).
  rewrite <- (sw_queue _ _ W). unfold kept_until in *. rewrite <- (sw_db _ _ W) in *. rewrite <- LK in L.
  eapply (PropExpire.C45_deadlines_tracked _ _ _ w s k HO (O AP) S); [|done]. split; [|by rewrite (sw_chan _ _ W)].
  pose proof (sw_threads _ _ W) as P. assert (E : threads_of x = []); [|rewrite E in P; by apply Permutation_nil; symmetry].
  unfold threads_of. rewrite Q2. cbn [repeat]. rewrite app_nil_r. induction Q1 as [|c l [C1 C2] Q1 IH]; [done|]. cbn [flat_map]. rewrite IH, app_nil_r.
  unfold to_tell, flushing, k_thread in *. destruct (k_pc c) as [| |? ? ? es| | |]; try done. by subst es.
Qed.
Print Assumptions C115_tracked.
(** A single client cannot overtake itself. *)
Lemma one_polite en evs x : (length (cs_conns (ld_cl x)) <= 1)%nat -> all_polite en evs x.
Proof.
  revert x. induction evs as [|[now u] evs IH]; intros x L; [done|]. cbn [all_polite snd]. split.
  - destruct u as [i| | | | | | |]; try done. intros k q w cs rs K PC (k' & m & I & M). assert (k' = k) as ->.
    { apply elem_of_list_In, elem_of_list_lookup in I as (j & J). pose proof (lookup_lt_Some _ _ _ J). pose proof (lookup_lt_Some _ _ _ K).
      assert (j = i) as -> by lia. congruence. }
    unfold to_tell in M. by rewrite PC in M.
  - destruct (leader_step en (now, u) x) as [y|] eqn:E; [|done]. apply IH. destruct u as [i| | | | | | |];
      try (rewrite (ProcessFacts.leader_step_conns _ _ _ _ E) by done; done).
    destruct x as [cl q sc n nt pm pc]. cbn [leader_step snd fst] in E. destruct (cstep en (i, now) cl) as [cl'|] eqn:C; [|done]. injection E as <-.
    unfold cstep in C. destruct (cs_conns cl !! _); [|done]. destruct (conn_step _ _ _ _ _ _) as [[[[k' b'] xs'] fw']|]; [|done]. injection C as <-.
    cbn [ld_cl cs_conns] in *. by rewrite insert_length.
Qed.
Theorem C115_one_client en l evs x s k : horder_ok (e_ho en) -> leader_steps en evs (leader_start db_empty [l]) = Some x ->
  all_told x -> (glances en evs (leader_start db_empty [l]) < kept_until x s k)%N ->
  In (Entry (kept_until x s k) s k) (ld_queue x) /\ (undisturbed x -> forall w, ld_purge x = PSleep w -> (w <= kept_until x s k)%N).
Proof.
  intros HO H A L. assert (I : In (Entry (kept_until x s k) s k) (ld_queue x)) by (eapply C115_tracked; eauto; apply one_polite; cbn; lia).
  split; [done|]. intros U w P. destruct (C115_sleep _ _ _ _ H U) as [B _]. apply (B w _ P I).
Qed.
Print Assumptions C115_one_client.

(** ** One scan per FLUSHALL *)
Theorem C115_scans en b ins evs x : leader_steps en evs (leader_start b ins) = Some x ->
  list_sum (map flush_count ins) =
    (list_sum (map (fun k => flush_count (k_in k)) (cs_conns (ld_cl x))) + length (List.filter flushing (cs_conns (ld_cl x))) + ld_scans x + scan_count evs)%nat.
Proof.
  intros H. pose proof (debt_steps _ _ _ _ H) as D. unfold debt in D.
  assert (A : forall l, list_sum (map (fun k => flush_count (k_in k) + (if flushing k then 1 else 0))%nat l) = (list_sum (map (fun k => flush_count (k_in k)) l) + length (List.filter flushing l))%nat).
  { induction l as [|c l IH]; [done|]. cbn [map List.filter]. change (list_sum (?a :: ?z)) with (a + list_sum z)%nat. rewrite IH. destruct (flushing c); cbn [length]; lia. }
  rewrite !A in D. cbn [leader_start ld_cl cs_start cs_conns ld_scans] in D.
  assert (B : list_sum (map (fun k => flush_count (k_in k)) (map (fun l => Client l KIdle []) ins)) = list_sum (map flush_count ins)) by (by rewrite map_map).
  assert (C : List.filter flushing (map (fun l => Client l KIdle []) ins) = []) by (clear; induction ins as [|l ins IH]; [done|exact IH]).
  rewrite B, C in D. cbn [length] in D. lia.
Qed.
Print Assumptions C115_scans.

(** ** Behind sockets *)
(** The server behind the sockets of the process of Process.v is such a server. *)
Theorem C115_process en max evs x : Process.psteps en evs (Process.pr_start db_empty max) = Some x ->
  exists ins, leader_steps en (SpecProcess.behind evs) (leader_start db_empty ins) = Some (Process.pr_ld x) /\
    (undisturbed (Process.pr_ld x) -> (forall w e, ld_purge (Process.pr_ld x) = PSleep w -> In e (ld_queue (Process.pr_ld x)) -> (w <= en_at e)%N) /\
      (ld_purge (Process.pr_ld x) = PIdle -> ld_queue (Process.pr_ld x) = [])).
Proof.
  intros H. destruct (ProcessFacts.pr_fine_steps _ _ _ _ _ H) as (ins & L & _). exists ins. split; [done|]. by apply (C115_sleep en ins _ _ L).
Qed.
Print Assumptions C115_process.

(** ** Concrete cases *)
From Verif Require Import PropClients PropServer.
Definition c115_no : ex_opts := ExOpts NxXx_None GtLt_None.
Definition c115_sees (x : leader) :=
  (forallb (fun k => bool_decide (to_tell k = []) && negb (flushing k)) (cs_conns (ld_cl x)), ld_scans x, cs_exp (ld_cl x), ld_queue x,
   (ld_permit x, ld_note x, ld_purge x), kept_until x (get_slot cl_a) cl_a).
Lemma c115_told x : forallb (fun k => bool_decide (to_tell k = []) && negb (flushing k)) (cs_conns (ld_cl x)) = true -> ld_scans x = O -> cs_exp (ld_cl x) = [] -> all_told x.
Proof.
  intros A B C. split; [|done]. rewrite forallb_forall in A. apply List.Forall_forall. intros k K. specialize (A k K).
  apply andb_true_iff in A as [A1 A2]. apply bool_decide_eq_true_1 in A1. apply negb_true_iff in A2. exact (conj A1 A2).
Qed.
Lemma c115_run {A} (f : leader -> A) evs ins v : option_map f (leader_steps ex_env evs (leader_start db_empty ins)) = Some v ->
  exists x, leader_steps ex_env evs (leader_start db_empty ins) = Some x /\ f x = v.
Proof. destruct (leader_steps _ _ _) as [x|]; [|done]. intros H. exists x. split; [done|]. cbn in H. congruence. Qed.
(** One client sets a key with a deadline and moves the deadline. The purge task is asleep until the new one. *)
Definition c115_one : list request := [QPsetex cl_a 1000 (SBytes (bs "v")); QPexpire cl_a 2000 c115_no].
Definition c115_evs : list (N * turn) :=
  repeat (1000%N, LConn 0) 14 ++ [(1001%N, LRecv); (1001%N, LNote); (1002%N, LRecv)] ++ repeat (1003%N, LPurge) 3.
Example C115_one_client_case : exists x, leader_steps ex_env c115_evs (leader_start db_empty [c115_one]) = Some x /\ all_told x /\
  (glances ex_env c115_evs (leader_start db_empty [c115_one]) < kept_until x (get_slot cl_a) cl_a)%N /\ kept_until x (get_slot cl_a) cl_a = 3000%N /\
  ld_purge x = PSleep 3000.
Proof.
  assert (H : option_map c115_sees (leader_steps ex_env c115_evs (leader_start db_empty [c115_one])) =
    Some (true, O, [], [Entry 3000 (get_slot cl_a) cl_a], (true, false, PSleep 3000), 3000%N)) by (vm_compute; reflexivity).
  assert (G : glances ex_env c115_evs (leader_start db_empty [c115_one]) = 1003%N) by (vm_compute; reflexivity).
  apply c115_run in H as (x & H & V). unfold c115_sees in V. repeat match type of V with (_, _) = (_, _) => apply pair_equal_spec in V as [V ?] end.
  exists x. split; [assumption|]. split; [apply c115_told; assumption|].
  match goal with K : kept_until x _ _ = _ |- _ => rewrite K end. split; [rewrite G; reflexivity|]. split; [reflexivity|].
  match goal with K : (_, _, ld_purge x) = _ |- _ => apply pair_equal_spec in K as [_ K]; exact K end.
Qed.
(** The hypotheses of the other theorems are met by the same execution, and here by one that scans. *)
Example C115_scans_case :
  option_map (fun x => (map k_out (cs_conns (ld_cl x)), ld_scans x, ld_scan x, ld_queue x))
    (leader_steps ex_env (repeat (1%N, LConn 0) (10 + N.to_nat slot_size) ++ [(2%N, LRecv); (3%N, LScan); (4%N, LVisit); (5%N, LVisit)])
      (leader_start db_empty [[QPsetex cl_a 500 (SBytes (bs "v")); QFlushall true]])) = Some ([[frame_ok; frame_ok]], O, None, []) /\
  list_sum (map flush_count [[QPsetex cl_a 500 (SBytes (bs "v")); QFlushall true]]) = 1%nat.
Proof. split; by vm_compute. Qed.

(** With two clients a deadline can get lost, because notifications are sent after the slot is unlocked: the key has deadline
    2000, everything has been delivered, nobody has purged anything, and 2000 is not in the queue. *)
Definition c115_race : list (list request) := [c115_one; [QPexpire cl_a 1000 c115_no]].
Theorem C115_two_clients_refuted : exists evs x, StronglySorted N.le (map fst evs) /\ leader_steps ex_env evs (leader_start db_empty c115_race) = Some x /\
  all_told x /\ map k_out (cs_conns (ld_cl x)) = [[frame_ok; FInteger 1]; [FInteger 1]] /\ glances ex_env evs (leader_start db_empty c115_race) = 0%N /\
  kept_until x (get_slot cl_a) cl_a = 2000%N /\ ~ In (Entry 2000 (get_slot cl_a) cl_a) (ld_queue x).
Proof.
  set (evs := repeat (1000%N, LConn 0) 9 ++ repeat (1000%N, LConn 1) 7 ++ repeat (1000%N, LConn 0) 5 ++ [(1000%N, LRecv); (1000%N, LNote); (1000%N, LRecv); (1000%N, LRecv)]).
  assert (H : option_map (fun x => (c115_sees x, map k_out (cs_conns (ld_cl x)))) (leader_steps ex_env evs (leader_start db_empty c115_race)) =
    Some (true, O, [], [Entry 3000 (get_slot cl_a) cl_a], (true, false, PStart), 2000%N, [[frame_ok; FInteger 1]; [FInteger 1]])) by (vm_compute; reflexivity).
  assert (G : glances ex_env evs (leader_start db_empty c115_race) = 0%N) by (vm_compute; reflexivity).
  apply c115_run in H as (x & H & V). unfold c115_sees in V. repeat match type of V with (_, _) = (_, _) => apply pair_equal_spec in V as [V ?] end.
  exists evs, x. split; [vm_compute; repeat (constructor; [|repeat (constructor; [discriminate|]); constructor]); constructor|]. split; [assumption|]. split; [apply c115_told; assumption|].
  split; [assumption|]. split; [assumption|]. split; [assumption|]. match goal with K : ld_queue x = _ |- _ => rewrite K end. intros [E|[]]. apply (f_equal en_at) in E. discriminate E.
Qed.
Print Assumptions C115_two_clients_refuted.
