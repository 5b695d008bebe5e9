(** The follower over changes of leader: C71-C74. *)
From Verif Require Import TasksFacts FollowerFacts.

(** ** Samples *)

(** The empty key lies in slot 0, the first slot of a full snapshot. *)
Definition tm (i : N) : fwd_msg := FwdMsg i 0 (Some (WSet [] (SBytes [x61]) (Specific 0) NxXx_None)).
(** What a follower reads of a full snapshot whose first slot is empty: PropReplica.v, C53. *)
Definition t_snap : bytes := put_snapshot horder_default [(0%N, dict_empty)].
(** A transfer from start to end. *)
Definition t_transfer : list tevent := [USyncAll; UOpen 0 t_snap; UXfer 0; UXfer 0; UXfer 0; UXfer 0].
(** The first leader, and a second one after the first has gone; task 0 then turns to the second channel. *)
Definition t_two : list tevent :=
  t_transfer ++ [USyncCmd; UStep 0 10; UHangup 0] ++ t_transfer ++ [USyncCmd; UStep 0 20; UStep 0 20; UStep 1 20]%N.

Definition ex_tk (evs : list tevent) : option tasks := tsteps evs tk_start.
Global Opaque ex_tk.

(** ** C71: order *)

(** Whatever happens, every message sent is finished once, or a task has it, or it is still queued. *)
Theorem C71_each_once_partial (evs : list tevent) (x : tasks) :
  tsteps evs tk_start = Some x ->
  Permutation (sent evs) (handled evs tk_start ++ concat (map holds (tk_cmds x)) ++ concat (map ch_msgs (tk_chans x))).
Proof. intros H. apply tsteps_messages in H. cbn [in_tasks in_chans tk_start tk_cmds tk_chans map concat app] in H. by rewrite app_nil_r in H. Qed.
Print Assumptions C71_each_once_partial.

(** A server that follows one leader only finishes the messages in the order in which they were sent. *)
Theorem C71_one_leader_partial (evs : list tevent) (x : tasks) :
  tsteps evs tk_start = Some x -> (leaders evs <= 1)%nat -> exists r, sent evs = handled evs tk_start ++ r.
Proof.
  intros H L. assert (I : in_line 0 [] [] tk_start) by done.
  pose proof (tsteps_in_line evs tk_start x [] [] 0 I L H) as J. cbn [Nat.add app] in J.
  destruct (leaders evs) as [|n].
  - destruct J as (_ & _ & _ & _ & -> & ->). by exists [].
  - destruct J as (c & q & o & _ & _ & _ & _ & _ & ->). by exists (holds c ++ q).
Qed.
Print Assumptions C71_one_leader_partial.

(** And what such a server can do is what Follower.v describes, so that everything proved about Follower.v
    holds for it. *)
Theorem C71_follower_partial (evs : list tevent) (x : tasks) :
  tsteps evs tk_start = Some x -> (leaders evs <= 1)%nat -> ~ In UClose evs -> (forall c, ~ In (UHangup c) evs) ->
  exists evs' f, fsteps evs' fo_start = Some f /\ fo_db f = tk_db x /\ fo_syncing f = tk_syncing x /\
    fo_locks f = tk_locks x /\ fo_xfers f = tk_xfers x.
Proof.
  intros H L C U. assert (A : as_follower tk_start fo_start) by (repeat split; by left).
  assert (F : Forall (fun ev => match ev with UClose | UHangup _ => False | _ => True end) evs).
  { apply List.Forall_forall. intros ev I. destruct ev; try done. by apply (U c). }
  destruct (tsteps_as_follower evs tk_start x fo_start 0 A eq_refl L F H) as (evs' & f & S & E1 & E2 & E3 & E4 & E5 & _).
  by exists evs', f.
Qed.
Print Assumptions C71_follower_partial.

Definition t_one : list tevent :=
  t_transfer ++ [USyncCmd; UMsg 0 (tm 1); UMsg 0 (tm 2); UStep 0 10; UStep 0 10; UStep 0 10; UStep 0 10; UStep 0 10; UStep 0 10; UStep 0 10; UStep 0 10]%N.
Example C71_case :
  leaders t_one = 1%nat /\ sent t_one = [tm 1; tm 2] /\ handled t_one tk_start = [tm 1; tm 2] /\
  option_map (fun x => write_id (tk_db x 0%N)) (ex_tk t_one) = Some 2%N /\ is_Some (ex_tk t_two) /\ leaders t_two = 2%nat.
Proof. vm_compute. split; [done|]. split; [done|]. split; [done|]. split; [done|]. split; [|done]. eexists. reflexivity. Qed.

(** It is false after a change of leader: two tasks share the channel, the second command overtakes the
    first, and the follower asks for a snapshot of a slot although nothing was lost.  Meanwhile every slot is
    locked. *)
Definition t_overtake : list tevent :=
  t_two ++ [UMsg 1 (tm 1); UMsg 1 (tm 2); UStep 0 30; UStep 1 30; UStep 1 30; UStep 1 30; UStep 1 30]%N.
Theorem C71_overtaken_refuted :
  exists x, ex_tk t_overtake = Some x /\ sent t_overtake = [tm 1; tm 2] /\
    tk_cmds x = [TWait (tm 1); TWait (tm 2)] /\ tk_xfers x = [XConnect 0] /\ tk_locks x = (fun _ => true).
Proof.
  assert (X : option_map (fun x => (tk_cmds x, tk_xfers x, tk_locks x)) (ex_tk t_overtake)
              = Some ([TWait (tm 1); TWait (tm 2)], [XConnect 0], fun _ => true)) by (vm_compute; reflexivity).
  destruct (ex_tk t_overtake) as [x|]; [|discriminate X]. cbn [option_map] in X. injection X as X1 X2 X3.
  exists x. split; [reflexivity|]. split; [reflexivity|]. by split.
Qed.
Print Assumptions C71_overtaken_refuted.

(** ** C72: waking up *)

(** A server that follows one leader only, and whose transfers do not fail, never waits for a slot that is
    unlocked once no transfer is under way. *)
Theorem C72_one_leader_partial (evs : list tevent) (x : tasks) (i : nat) (m : fwd_msg) :
  tsteps evs tk_start = Some x -> (leaders evs <= 1)%nat -> no_failure evs ->
  tk_cmds x !! i = Some (TPark m) -> tk_xfers x = [] -> tk_locks x (fm_slot m) = true.
Proof.
  intros H L F P X. assert (I : in_line 0 [] [] tk_start) by done.
  pose proof (tsteps_in_line evs tk_start x [] [] 0 I L H) as J. cbn [Nat.add app] in J.
  assert (V : not_in_vain tk_start) by (split; [constructor|done]).
  destruct (tsteps_not_in_vain evs tk_start x [] [] 0 I L F V H) as [_ W].
  destruct (leaders evs) as [|n].
  - destruct J as (E & _). rewrite E in P. by rewrite lookup_nil in P.
  - destruct J as (c & q & o & E & _). rewrite E in *. destruct i as [|i]; [|done]. injection P as ->.
    destruct W as [W|W]; [done|congruence].
Qed.
Print Assumptions C72_one_leader_partial.

(** While a transfer is under way the task waits; when it has completed the task goes on. *)
Definition t_waits : list tevent :=
  [USyncAll; UOpen 0 t_snap; USyncCmd; UMsg 0 (FwdMsg 1 5 (Some (WDel [x6b]))); UStep 0 10; UStep 0 10; UStep 0 10; UStep 0 10;
   UXfer 0; UXfer 0; UXfer 0; UXfer 0; UStep 0 10; UStep 0 10]%N.
Lemma t_snap_complete : complete t_snap.
Proof.
  assert (R : exists d r, read_item t_snap = IInstall 0%N d r /\ read_item r = IEnd).
  { assert (E : match read_item t_snap with IInstall j d r => (j =? 0)%N && match read_item r with IEnd => true | _ => false end | _ => false end = true)
      by (vm_compute; reflexivity).
    destruct (read_item t_snap) as [j d r| |]; try done. apply andb_prop in E as [E1 E2]. apply N.eqb_eq in E1. subst j.
    exists d, r. split; [reflexivity|]. by destruct (read_item r). }
  destruct R as (d & r & R1 & R2). eapply complete_slot; [exact R1|]. by apply complete_end.
Qed.
Example C72_case :
  leaders t_waits = 1%nat /\ no_failure t_waits /\
  option_map (fun x => (tk_cmds x, tk_xfers x)) (ex_tk t_waits) = Some ([TPark (FwdMsg 1 5 (Some (WDel [x6b])))], []).
Proof.
  split; [done|]. split; [|vm_compute; reflexivity].
  unfold no_failure, t_waits. repeat match goal with |- Forall _ _ => constructor end; try exact I. exact t_snap_complete.
Qed.

(** It is false after a change of leader: of two tasks that wait for the same slot only one is woken.  The
    other one goes on waiting although the slot is unlocked, until some later transfer has reached the
    leader, and with it its message. *)
Definition t_unwoken : list tevent :=
  t_transfer ++ [USyncCmd; UStep 0 10; UHangup 0; USyncAll; USyncCmd; UStep 0 20; UStep 0 20; UStep 1 20;
    UMsg 1 (tm 1); UMsg 1 (tm 2); UStep 0 30; UStep 0 30; UStep 0 30; UStep 0 30; UStep 0 30; UStep 1 30; UStep 1 30; UStep 1 30;
    UOpen 0 t_snap; UXfer 0; UXfer 0; UXfer 0; UXfer 0]%N.
Theorem C72_unwoken_refuted :
  exists x, ex_tk t_unwoken = Some x /\ no_failure t_unwoken /\
    tk_cmds x = [TWait (tm 1); TPark (tm 2)] /\ tk_xfers x = [] /\ tk_locks x (fm_slot (tm 2)) = false /\
    forall evs x', (forall k s, ~ In (UOpen k s) evs) -> tsteps evs x = Some x' -> tk_cmds x' !! 1%nat = Some (TPark (tm 2)).
Proof.
  assert (X : option_map (fun x => (tk_cmds x, tk_xfers x, tk_locks x (fm_slot (tm 2)))) (ex_tk t_unwoken)
              = Some ([TWait (tm 1); TPark (tm 2)], [], false)) by (vm_compute; reflexivity).
  destruct (ex_tk t_unwoken) as [x|]; [|discriminate X]. cbn [option_map] in X. injection X as X1 X2 X3.
  exists x. split; [reflexivity|]. split.
  { unfold no_failure, t_unwoken, t_transfer. cbn [app]. repeat match goal with |- Forall _ _ => constructor end; try exact I; exact t_snap_complete. }
  split; [assumption|]. split; [assumption|]. split; [assumption|].
  intros evs x' O H. apply (parked_steps 1 (tm 2) evs x x'); try assumption; [by rewrite X1|rewrite X2; constructor].
Qed.
Print Assumptions C72_unwoken_refuted.

(** ** C73: the old leader *)

(** After promotion each task finishes at most one more message. *)
Theorem C73_promoted_partial (evs : list tevent) (x x' : tasks) :
  tk_rx x = None -> ~ In USyncCmd evs -> tsteps evs x = Some x' ->
  (length (handled evs x) <= length (tk_cmds x))%nat.
Proof. intros R N H. pose proof (busy_steps evs x x' R N H). pose proof (busy_le (tk_cmds x)). lia. Qed.
Print Assumptions C73_promoted_partial.

(** After promotion or a change of leader, each task that waits for the old leader takes at most one more
    message from it, and the other tasks take none. *)
Theorem C73_old_leader_partial (c : nat) (evs : list tevent) (x x' : tasks) :
  tk_rx x <> Some c -> ~ In USyncCmd evs -> tsteps evs x = Some x' ->
  (length (taken c evs x) <= length (List.filter (fun p => match p with TRecv c' => Nat.eqb c' c | _ => false end) (tk_cmds x)))%nat.
Proof.
  intros R N H. pose proof (taken_steps c evs x x' R N H) as T.
  assert (E : forall cs, list_sum (map (on_chan c) cs) = length (List.filter (fun p => match p with TRecv c' => Nat.eqb c' c | _ => false end) cs)).
  { induction cs as [|p cs IH]; [done|]. cbn [map List.filter]. change (list_sum (on_chan c p :: ?q)) with (on_chan c p + list_sum q)%nat.
    rewrite IH. destruct p as [|c'| | | | | | | |]; cbn [on_chan]; try done. by destruct (Nat.eqb c' c). }
  rewrite !E in T. lia.
Qed.
Print Assumptions C73_old_leader_partial.

(** It is false that nothing is applied any more: a task that waits for a message when the server is promoted
    applies the next one of the old leader. *)
Definition t_promoted : list tevent := t_transfer ++ [USyncCmd; UStep 0 10; UClose]%N.
Definition t_late : list tevent := [UMsg 0 (tm 1); UStep 0 20; UStep 0 20; UStep 0 20]%N.
Theorem C73_late_message_refuted :
  exists x x', ex_tk t_promoted = Some x /\ tk_rx x = None /\ tsteps t_late x = Some x' /\ handled t_late x = [tm 1] /\
    write_id (tk_db x 0%N) = 0%N /\ write_id (tk_db x' 0%N) = 1%N.
Proof.
  assert (X : match ex_tk t_promoted with
              | Some x => match tsteps t_late x with
                          | Some x' => Some (tk_rx x, handled t_late x, write_id (tk_db x 0%N), write_id (tk_db x' 0%N))
                          | None => None end
              | None => None end = Some (None, [tm 1], 0%N, 1%N)) by (vm_compute; reflexivity).
  destruct (ex_tk t_promoted) as [x|]; [|discriminate X]. destruct (tsteps t_late x) as [x'|] eqn:E; [|discriminate X].
  injection X as X1 X2 X3 X4. exists x, x'. split; [reflexivity|]. split; [assumption|]. split; [exact E|]. by split.
Qed.
Print Assumptions C73_late_message_refuted.

(** The same after a change of leader: the message of the old leader is applied after the snapshot of the new
    one, and takes the number of the new leader's first command, which is then ignored. *)
Definition t_changed : list tevent := t_transfer ++ [USyncCmd; UStep 0 10]%N ++ t_transfer ++ [USyncCmd].
Definition tm_new : fwd_msg := FwdMsg 1 0 (Some (WSet [] (SBytes [x62]) (Specific 0) NxXx_None)).
Definition t_late2 : list tevent :=
  [UMsg 0 (tm 1); UStep 0 20; UStep 0 20; UStep 0 20; UMsg 1 tm_new; UStep 1 30; UStep 1 30; UStep 1 30; UStep 1 30]%N.
Theorem C73_late_after_change_refuted :
  exists x x', ex_tk t_changed = Some x /\ tk_rx x = Some 1%nat /\ tsteps t_late2 x = Some x' /\ handled t_late2 x = [tm 1; tm_new] /\
    contents (tk_db x 0%N) [] = None /\ contents (tk_db x' 0%N) [] = Some (DScalar (SBytes [x61]), 0%N).
Proof.
  assert (X : match ex_tk t_changed with
              | Some x => match tsteps t_late2 x with
                          | Some x' => Some (tk_rx x, handled t_late2 x, contents (tk_db x 0%N) [], contents (tk_db x' 0%N) [])
                          | None => None end
              | None => None end = Some (Some 1%nat, [tm 1; tm_new], None, Some (DScalar (SBytes [x61]), 0%N))) by (vm_compute; reflexivity).
  destruct (ex_tk t_changed) as [x|]; [|discriminate X]. destruct (tsteps t_late2 x) as [x'|] eqn:E; [|discriminate X].
  injection X as X1 X2 X3 X4. exists x, x'. split; [reflexivity|]. split; [assumption|]. split; [exact E|]. by split.
Qed.
Print Assumptions C73_late_after_change_refuted.

Example C73_case :
  option_map (fun x => (tk_rx x, length (tk_cmds x))) (ex_tk t_promoted) = Some (None, 1%nat) /\
  option_map (fun x => (tk_rx x, tk_cmds x)) (ex_tk t_changed) = Some (Some 1%nat, [TRecv 0; TLoad]) /\
  ~ In USyncCmd t_late /\ ~ In USyncCmd t_late2.
Proof.
  split; [vm_compute; reflexivity|]. split; [vm_compute; reflexivity|].
  split; cbn; intuition discriminate.
Qed.

(** ** C74: waiting without work *)

(** While the connection to the current leader is up, the tasks by themselves come to rest: the number of
    steps that they take is bounded by the messages queued. *)
Theorem C74_comes_to_rest_partial (evs : list tevent) (x x' : tasks) :
  (forall c, tk_rx x = Some c -> exists ms, tk_chans x !! c = Some (Chan ms true)) ->
  Forall (fun ev => exists i now, ev = UStep i now) evs -> tsteps evs x = Some x' ->
  (length evs <= 3 * length (tk_cmds x) + 4 * length (concat (map ch_msgs (tk_chans x))) + 8)%nat.
Proof. intros R F H. pose proof (effort_steps evs x x' R F H). pose proof (effort_le x). unfold queued in *. lia. Qed.
Print Assumptions C74_comes_to_rest_partial.

(** It is false once that connection has ended, until the placement driver names another leader or promotes
    this server: the task goes round for ever, each round two steps, and nothing changes. *)
Definition t_hangup : list tevent := t_transfer ++ [USyncCmd; UHangup 0].
Theorem C74_spins_refuted :
  exists x, ex_tk t_hangup = Some x /\ forall n, tsteps (concat (repeat [UStep 0 20; UStep 0 20]%N n)) x = Some x.
Proof.
  assert (X : option_map (fun x => (tk_cmds x, tk_rx x, tk_chans x)) (ex_tk t_hangup) = Some ([TLoad], Some O, [Chan [] false])) by (vm_compute; reflexivity).
  destruct (ex_tk t_hangup) as [x|]; [|discriminate X]. cbn [option_map] in X. injection X as X1 X2 X3.
  exists x. split; [reflexivity|]. intros n. induction n as [|n IH]; [done|]. cbn [repeat concat]. rewrite tsteps_app.
  destruct x as [b sy lk pm ws ch rx cs xs]. cbn [tk_cmds tk_rx tk_chans] in *. subst. exact IH.
Qed.
Print Assumptions C74_spins_refuted.

Definition t_rest : list tevent := [UStep 0 20; UStep 0 20; UStep 0 20; UStep 0 20; UStep 0 20]%N.
Example C74_case :
  option_map (fun x => (tk_rx x, tk_chans x)) (ex_tk (t_transfer ++ [USyncCmd; UMsg 0 (tm 1)])) = Some (Some O, [Chan [tm 1] true]) /\
  option_map tk_cmds (ex_tk (t_transfer ++ [USyncCmd; UMsg 0 (tm 1)] ++ t_rest)) = Some [TRecv 0] /\
  option_map tk_cmds (ex_tk (t_transfer ++ [USyncCmd; UMsg 0 (tm 1)] ++ t_rest ++ [UStep 0 20]%N)) = None.
Proof. vm_compute. done. Qed.

(** ** C49: a failed transfer and later leaders *)

(** Once the transfer in progress has failed no later leader helps: no snapshot is ever asked for again, and
    the slots stay locked as they are. *)
Theorem C49_failed_for_every_leader (evs : list tevent) (x x' : tasks) :
  tk_syncing x = true -> tk_xfers x = [] -> tsteps evs x = Some x' ->
  tk_syncing x' = true /\ tk_xfers x' = [] /\ tk_locks x' = tk_locks x.
Proof. exact (tk_failed_steps evs x x'). Qed.
Print Assumptions C49_failed_for_every_leader.
Example C49_failed_case :
  option_map (fun x => (tk_syncing x, tk_xfers x, tk_locks x 7%N)) (ex_tk [USyncAll; USyncCmd; UFail 0; UClose; USyncAll; USyncCmd])
  = Some (true, [], true).
Proof. vm_compute. reflexivity. Qed.
