(** Replication: C48-C54 and C56. *)
From Verif Require Import FollowerFacts.

Local Open Scope N_scope.

(** ** Sample histories of one slot *)
Definition rk : bytes := [x6b].
Definition rk2 : bytes := [x7b; x6b; x7d; x32].
Definition rs : N := get_slot rk.
Definition rv (b : byte) : scalar := SBytes [b].
Definition rset (k : bytes) (b : byte) (e : N) : sop := SWrite (WSet k (rv b) (Specific e) NxXx_None).
Definition rdel (k : bytes) : sop := SWrite (WDel k).
Definition rincr (k : bytes) : sop := SWrite (WIncr k 1).
Notation rho := horder_default.

(** ** C48: a follower holds a prefix of the leader's history *)

(** Whatever subset of the leader's messages arrives, in whatever order and multiplicity, and whenever
    snapshots are installed, the follower's slot is in the state in which a leader would be after executing
    the first [write_id] writes of the leader's history, each exactly once and in order. *)
Theorem C48_prefix_partial (ho : horder) (s : N) (h : list (N * sop)) (f : list (N * fop)) :
  no_flush h -> N.of_nat (length (writes h)) < 2 ^ 64 ->
  Forall (fun p => from_leader ho s h (snd p)) f ->
  exists p g, (exists q, h = p ++ q) /\ no_flush g /\ no_restore (writes g) /\
    follower_run ho s f dict_empty = slot_run ho s (p ++ g) dict_empty /\
    writes (p ++ g) = firstn (N.to_nat (write_id (follower_run ho s f dict_empty))) (writes h).
Proof. intros F B L. apply (follower_steps ho s h f dict_empty F B L). apply at_prefix_start. Qed.
Print Assumptions C48_prefix_partial.

Definition c48_h : list (N * sop) := [(10, rset rk x61 0); (20, rset rk2 x62 0); (30, rdel rk); (40, rset rk x63 0)].
Definition c48_msg (i : nat) : fwd_msg := nth i (slot_sent rho rs c48_h dict_empty) msg_none.
Definition c48_f : list (N * fop) :=
  [(15, FDeliver (c48_msg 0)); (16, FDeliver (c48_msg 3)); (17, FDeliver (c48_msg 2)); (18, FDeliver (c48_msg 0));
   (25, FDeliver (c48_msg 1)); (26, FRead (RGet rk)); (27, FDeliver (c48_msg 2))].
Example C48_case :
  no_flush c48_h /\ Forall (fun p => from_leader rho rs c48_h (snd p)) c48_f /\
  write_id (follower_run rho rs c48_f dict_empty) = 3 /\
  contents (follower_run rho rs c48_f dict_empty) rk = None /\
  contents (follower_run rho rs c48_f dict_empty) rk2 = Some (DScalar (rv x62), 0).
Proof.
  split; [repeat constructor; done|]. split.
  { assert (L : length (slot_sent rho rs c48_h dict_empty) = 4%nat) by (by vm_compute).
    assert (K : forall i, (i < 4)%nat -> In (c48_msg i) (slot_sent rho rs c48_h dict_empty)).
    { intros i I. unfold c48_msg. apply nth_In. by rewrite L. }
    unfold c48_f. repeat match goal with |- Forall _ _ => constructor end; cbn [snd from_leader]; first [exact I|apply K; lia]. }
  vm_compute. tauto.
Qed.

(** It is false once a client writes to the follower, which nothing prevents: the follower then ignores a
    command of the leader that it has never applied. *)
Theorem C48_client_writes_refuted :
  exists h f, no_flush h /\ Forall (fun p => match snd p with FClient _ => True | o => from_leader rho rs h o end) f /\
    In (FDeliver (FwdMsg 1 rs (to_write_cmd (WSet rk (rv x61) (Specific 0) NxXx_None)))) (map snd f) /\
    contents (slot_run rho rs h dict_empty) rk = Some (DScalar (rv x61), 0) /\
    write_id (follower_run rho rs f dict_empty) = write_id (slot_run rho rs h dict_empty) /\
    contents (follower_run rho rs f dict_empty) rk = None.
Proof.
  exists [(10, rset rk x61 0)],
    [(5, FClient (WSet rk2 (rv x62) (Specific 0) NxXx_None));
     (15, FDeliver (FwdMsg 1 rs (to_write_cmd (WSet rk (rv x61) (Specific 0) NxXx_None))))].
  split; [by repeat constructor|]. split.
  { constructor; [done|]. constructor; [|done]. cbn [snd from_leader]. left. by vm_compute. }
  split; [right; by left|]. vm_compute. tauto.
Qed.
Print Assumptions C48_client_writes_refuted.

(** ** C49: gaps are detected *)

(** A command that is not the next one leaves the follower as it is: an old one is ignored, one from the
    future is reported. *)
Theorem C49_gap_detected (s now id : N) (w : wreq) (d : dict) :
  write_id d + 1 < 2 ^ 64 ->
  (id <= write_id d -> process_forward s now id (Some w) d = (d, Some Lt, [])) /\
  (write_id d + 1 < id -> process_forward s now id (Some w) d = (d, Some Gt, [])).
Proof.
  intros B. unfold process_forward, wrap_u64, two64. rewrite N.mod_small by lia.
  split; intros H; destruct (N.compare_spec id (write_id d + 1)); done || lia.
Qed.
Print Assumptions C49_gap_detected.

(** The next command is executed, and the task goes on to the next message also if the command fails on this follower; only a
    panic ends it. *)
Theorem C49_in_sequence (f : follower) (m : fwd_msg) (w : wreq) (now : N) (d : dict) (r : outcome resp) (e : exp_status) :
  fo_cmd f = CTry m -> fm_cmd m = Some w -> write_id (fo_db f (fm_slot m)) + 1 < 2 ^ 64 -> fm_id m = write_id (fo_db f (fm_slot m)) + 1 ->
  wapply now w (set_write_id (fm_id m) (fo_db f (fm_slot m))) = (d, r, e) ->
  exists f', fsteps [VStep now] f = Some f' /\ fo_db f' (fm_slot m) = d /\ (forall i, i <> fm_slot m -> fo_db f' i = fo_db f i) /\
    fo_cmd f' = (match r with OPanic => CDead | _ => CRecv end) /\ fo_rx f' = fo_rx f /\ fo_xfers f' = fo_xfers f.
Proof.
  destruct f as [b sy lk pm rx c xs]. cbn [fo_cmd fo_db fo_xfers fo_rx]. intros -> C B G W.
  cbn [fsteps fstep cmd_step]. rewrite C. unfold process_forward, wrap_u64, two64. rewrite N.mod_small by lia. rewrite G in *. rewrite N.compare_refl, W.
  assert (D : forall i, i <> fm_slot m -> db_set (fm_slot m) d b i = b i).
  { intros i I. unfold db_set. by destruct (N.eqb_spec i (fm_slot m)). }
  assert (D' : db_set (fm_slot m) d b (fm_slot m) = d) by (unfold db_set; by rewrite N.eqb_refl).
  destruct r; (eexists; split; [reflexivity|]); cbn [fo_cmd fo_db fo_xfers fo_rx]; done.
Qed.
Print Assumptions C49_in_sequence.
(** A follower on which the key has another type than on the leader: INCR fails there. *)
Example C49_in_sequence_case :
  let f := Follower (db_set 7 (Dict 0 {[ [x6b] := Value (DDeque []) 0 0 ]}) db_empty) false (fun _ => false) false [] (CTry (FwdMsg 1 7 (Some (WIncr [x6b] 1)))) [] in
  snd (fst (wapply 10 (WIncr [x6b] 1) (set_write_id 1 (fo_db f 7)))) = OErr EWrongType /\
  (exists f', fsteps [VStep 10] f = Some f' /\ write_id (fo_db f' 7) = 1 /\ fo_cmd f' = CRecv).
Proof.
  split; [by vm_compute|]. eexists. split; [reflexivity|]. split; [by vm_compute|]. vm_compute. reflexivity.
Qed.

(** The task then asks the leader for a snapshot of exactly that slot, unless a transfer is under way, in
    which case it tries again later. *)
Theorem C49_gap_requests_snapshot_partial (f : follower) (m : fwd_msg) (w : wreq) (now now' : N) :
  fo_cmd f = CTry m -> fm_cmd m = Some w ->
  write_id (fo_db f (fm_slot m)) + 1 < 2 ^ 64 -> write_id (fo_db f (fm_slot m)) + 1 < fm_id m ->
  exists f', fsteps [VStep now; VStep now'] f = Some f' /\
    (forall i, fo_db f' i = fo_db f i) /\
    (fo_syncing f = false -> fo_cmd f' = CWait m /\ fo_xfers f' = fo_xfers f ++ [XConnect (fm_slot m)]) /\
    (fo_syncing f = true -> fo_cmd f' = CSleep m /\ fo_xfers f' = fo_xfers f).
Proof.
  destruct f as [b sy lk pm rx c xs]. cbn [fo_cmd fo_db fo_syncing fo_xfers]. intros -> C B G.
  cbn [fsteps fstep cmd_step]. rewrite C.
  destruct (C49_gap_detected (fm_slot m) now (fm_id m) w (b (fm_slot m)) B) as [_ E]. rewrite (E G).
  cbn [fstep cmd_step sync_snapshot].
  assert (D : forall i, db_set (fm_slot m) (b (fm_slot m)) b i = b i).
  { intros i. unfold db_set. destruct (N.eqb_spec i (fm_slot m)); congruence. }
  destruct sy; (eexists; split; [reflexivity|]); cbn [fo_cmd fo_db fo_syncing fo_xfers]; done.
Qed.
Print Assumptions C49_gap_requests_snapshot_partial.

(** A slot read from the stream is installed as read. *)
Theorem C49_installs (f : follower) (i : nat) (s r : bytes) (j : N) (d : dict) :
  nth_error (fo_xfers f) i = Some (XRead s) -> read_item s = IInstall j d r ->
  exists f', fstep (VXfer i) f = Some f' /\ fo_db f' j = d /\ forall k, k <> j -> fo_db f' k = fo_db f k.
Proof.
  destruct f as [b sy lk pm rx c xs]. cbn [fo_db fo_xfers]. intros X R. cbn [fstep xfer_step]. rewrite X, R.
  eexists. split; [reflexivity|]. cbn [fo_db]. unfold db_set. rewrite N.eqb_refl. split; [done|].
  intros k K. by destruct (N.eqb_spec k j).
Qed.
Print Assumptions C49_installs.

Definition ex_fo (evs : list fevent) : option follower := fsteps evs fo_start.
Global Opaque ex_fo.

(** Observes an execution through projections. *)
Ltac fo_shows f obs :=
  match goal with
  | |- context [ex_fo ?evs] =>
      let H := fresh "H" in
      let v := eval vm_compute in (option_map obs (ex_fo evs)) in
      assert (H : option_map obs (ex_fo evs) = v) by (vm_compute; reflexivity);
      destruct (ex_fo evs) as [f|] eqn:?; [cbn [option_map] in H|discriminate H]
  end.

Definition wset1 : wreq := WSet rk (rv x61) (Specific 0) NxXx_None.
Definition wdel2 : wreq := WDel rk.
Definition gap_msg : fwd_msg := FwdMsg 2 rs (Some wdel2).
Definition to_gap : list fevent := [VMsg gap_msg; VStep 10; VStep 10].
Example C49_case :
  option_map (fun f => (fo_cmd f, write_id (fo_db f rs), fo_syncing f)) (ex_fo to_gap) = Some (CTry gap_msg, 0, false) /\
  option_map fo_xfers (ex_fo (to_gap ++ [VStep 10; VStep 10])) = Some [XConnect rs].
Proof. vm_compute. tauto. Qed.

(** The claim is false: if the transfer fails, for instance because the leader cannot be reached, the
    follower never asks for any snapshot again, whatever happens, and every slot stays locked. *)
Theorem C49_failed_transfer_refuted :
  exists evs f, ex_fo evs = Some f /\ ~ In VSyncAll evs /\
    fo_cmd f = CAwait gap_msg /\
    forall evs' f', fsteps evs' f = Some f' ->
      fo_xfers f' = [] /\ fo_syncing f' = true /\ forall j, fo_locks f' j = true.
Proof.
  exists (to_gap ++ [VStep 10; VStep 10; VFail 0; VStep 10]).
  assert (L : forall f, ex_fo (to_gap ++ [VStep 10; VStep 10; VFail 0; VStep 10]) = Some f -> fo_locks f = fun _ => true).
  { intros f E. assert (X : option_map fo_locks (ex_fo (to_gap ++ [VStep 10; VStep 10; VFail 0; VStep 10])) = Some (fun _ => true))
      by (vm_compute; reflexivity). rewrite E in X. by injection X. }
  assert (X : option_map (fun f => (fo_cmd f, fo_syncing f, fo_xfers f))
            (ex_fo (to_gap ++ [VStep 10; VStep 10; VFail 0; VStep 10])) = Some (CAwait gap_msg, true, [])) by (vm_compute; reflexivity).
  destruct (ex_fo (to_gap ++ [VStep 10; VStep 10; VFail 0; VStep 10])) as [f|] eqn:E; [|discriminate X].
  specialize (L f eq_refl). cbn [option_map] in X. injection X as X1 X2 X3.
  exists f. split; [reflexivity|]. split; [cbn; intuition discriminate|]. split; [assumption|].
  intros evs' f' H. destruct (failed_steps evs' f f' X2 X3 H) as (A & B & C).
  split; [assumption|]. split; [assumption|]. intros j. by rewrite C, L.
Qed.
Print Assumptions C49_failed_transfer_refuted.

(** And if the transfer succeeds, the follower does not equal the leader: it takes over a sequence number
    that is 2^48 times too large, and ignores everything that the leader sends from then on. *)
Theorem C49_after_snapshot_refuted (ho : horder) (s now id : N) (w : wreq) (d : dict) :
  horder_ok ho -> s < slot_size -> 0 < write_id d < 2 ^ 15 -> inner d = ∅ -> id < 2 ^ 48 ->
  exists d', read_snapshot (put_snapshot ho [(s, d)]) = ([(s, d')], true) /\ d' <> d /\
    process_forward s now id (Some w) d' = (d', Some Lt, []).
Proof.
  intros HO Hs Hw He Hid. exists (Dict (shifted_id d) ∅).
  assert (HV : ho value (inner d) = []).
  { rewrite He. apply Permutation_nil. symmetry. rewrite (HO value ∅). by rewrite map_to_list_empty. }
  split; [|split].
  - rewrite snapshot_shifted; try done; [|lia|rewrite He, map_size_empty; lia|].
    + by rewrite decide_True.
    + unfold put_snapshot, put_dict, put_seq, put_option, put_u8, put_u16, put_u64. cbn [map concat fst snd]. rewrite HV.
      rewrite !app_length, !put_le_length. cbn [length concat map]. lia.
  - intros E. assert (X : shifted_id d = write_id d) by (by rewrite <- E at 2). unfold shifted_id in X. lia.
  - apply C49_gap_detected; cbn [write_id]; unfold shifted_id; lia.
Qed.
Print Assumptions C49_after_snapshot_refuted.

(** ** C50: FLUSHALL *)

(** After FLUSHALL the leader numbers its writes from 1 again.  A follower that had applied [n] writes
    before ignores all of them until the leader has written more than [n] times. *)
Theorem C50_later_writes_ignored (ho : horder) (s : N) (h : list (N * sop)) (d : dict) (ms : list (N * fop)) :
  no_flush h -> N.of_nat (length (writes h)) <= write_id d -> write_id d + 1 < 2 ^ 64 ->
  Forall (fun p => exists m, snd p = FDeliver m /\ In m (slot_sent ho s h (slot_flush d))) ms ->
  follower_run ho s ms d = d.
Proof.
  intros F L B M. induction M as [|[t o] ms (m & E & I) _ IH]; [done|]. cbn [snd] in E. subst o.
  cbn [follower_run]. rewrite <- IH at 2. f_equal.
  destruct (slot_sent_in ho s h (slot_flush d) m F) as (i & w & W & ->); [cbn; lia|done|].
  unfold follower_op. cbn [snd fst fm_id fm_cmd]. destruct (to_write_cmd w) as [w'|]; [|done].
  assert (i < length (writes h))%nat by (by eapply lookup_lt_Some).
  destruct (C49_gap_detected s t (write_id (slot_flush d) + N.of_nat i + 1) w' d) as [Q _]; [done|].
  rewrite Q; [done|]. cbn. lia.
Qed.
Print Assumptions C50_later_writes_ignored.

Definition c50_h : list (N * sop) := [(10, rset rk x61 0); (15, rset rk2 x61 0); (20, SFlush); (30, rset rk2 x62 0)].
Theorem C50_flushall_refuted :
  exists h, slot_run rho rs h dict_empty = slot_run rho rs c50_h dict_empty /\ In (20, SFlush) h /\
    let f := follower_run rho rs (deliver_at (map fst h) (slot_sent rho rs h dict_empty)) dict_empty in
    contents (slot_run rho rs h dict_empty) rk = None /\
    contents (slot_run rho rs h dict_empty) rk2 = Some (DScalar (rv x62), 0) /\
    contents f rk = Some (DScalar (rv x61), 0) /\
    contents f rk2 = Some (DScalar (rv x61), 0).
Proof.
  exists c50_h. split; [reflexivity|]. split; [cbn; tauto|]. vm_compute. tauto.
Qed.
Print Assumptions C50_flushall_refuted.
Example C50_case :
  let d := slot_run rho rs [(10, rset rk x61 0); (15, rset rk2 x61 0)] dict_empty in
  write_id d = 2 /\ slot_sent rho rs [(30, rset rk2 x62 0)] (slot_flush d) = [FwdMsg 1 rs (Some (WSet rk2 (rv x62) (Specific 0) NxXx_None))].
Proof. vm_compute. tauto. Qed.

(** ** C51: RESTORE *)

(** The message that the leader forwards for RESTORE changes nothing on a follower, ever. *)
Theorem C51_restore_is_forwarded_as_nothing (s now now' : N) (r : restore_req) (d f : dict) :
  forall m, In m (wo_fwd (snd (slot_write s now (WRestore r) d))) ->
    process_forward s now' (fm_id m) (fm_cmd m) f = (f, Some Eq, []).
Proof.
  intros m I. pose proof (slot_write_seq s now (WRestore r) d) as Q.
  destruct (slot_write s now (WRestore r) d) as [d' o]. cbn [snd] in I. destruct Q as [_ Q]. rewrite Q in I.
  destruct (wo_res o); cbn in I; (destruct I as [<-|[]] || destruct I); done.
Qed.
Print Assumptions C51_restore_is_forwarded_as_nothing.

(** The next write of the leader to the slot is then a gap for a follower that had everything before. *)
Theorem C51_next_write_is_a_gap (ho : horder) (s t t' t1 t2 : N) (r : restore_req) (w : wreq) (d f : dict) :
  write_id f = write_id d -> write_id d + 2 < 2 ^ 64 -> is_restore w = false ->
  forall f', f' = follower_run ho s (map (fun m => (t1, FDeliver m)) (slot_sent ho s [(t, SWrite (WRestore r))] d)) f ->
  forall m, In m (slot_sent ho s [(t', SWrite w)] (slot_run ho s [(t, SWrite (WRestore r))] d)) ->
    process_forward s t2 (fm_id m) (fm_cmd m) f' = (f', Some Gt, []).
Proof.
  intros W B R f' -> m I.
  assert (F : follower_run ho s (map (fun m => (t1, FDeliver m)) (slot_sent ho s [(t, SWrite (WRestore r))] d)) f = f).
  { assert (Z : forall m, In m (slot_sent ho s [(t, SWrite (WRestore r))] d) -> forall g, follower_op ho s (t1, FDeliver m) g = g).
    { intros m' I' g. cbn [slot_sent] in I'. rewrite app_nil_r in I'. unfold slot_op in I'. cbn [snd fst] in I'.
      unfold follower_op. cbn [snd fst].
      rewrite (C51_restore_is_forwarded_as_nothing s t t1 r d g m'); [done|].
      by destruct (slot_write s t (WRestore r) d). }
    revert Z. generalize (slot_sent ho s [(t, SWrite (WRestore r))] d). intros l. induction l as [|a l IH]; intros Z; [done|].
    cbn [map follower_run]. rewrite Z by (by left). apply IH. intros m' I'. apply Z. by right. }
  rewrite F.
  assert (WD : write_id (slot_run ho s [(t, SWrite (WRestore r))] d) = write_id d + 1).
  { rewrite slot_run_id; [cbn; lia| |cbn; lia]. by repeat constructor. }
  destruct (slot_sent_in ho s [(t', SWrite w)] (slot_run ho s [(t, SWrite (WRestore r))] d) m) as (i & w' & E & ->).
  { by repeat constructor. }
  { rewrite WD. cbn. lia. }
  { exact I. }
  cbn [writes] in E. destruct i as [|i]; [|done]. injection E as <-. cbn [fm_id fm_cmd]. rewrite WD.
  replace (to_write_cmd w) with (Some w) by (by destruct w).
  apply C49_gap_detected; lia.
Qed.
Print Assumptions C51_next_write_is_a_gap.

Definition c51_r : restore_req := RestoreReq rk (put_data rho (DScalar (rv x61))) 0 false 0 0.
Theorem C51_restore_refuted :
  exists h, In (10, SWrite (WRestore c51_r)) h /\
    let f := follower_run rho rs (deliver_at (map fst h) (slot_sent rho rs h dict_empty)) dict_empty in
    length (slot_sent rho rs h dict_empty) = length (writes h) /\
    contents (slot_run rho rs h dict_empty) rk = Some (DScalar (rv x61), 0) /\
    contents f rk = None.
Proof. exists [(10, SWrite (WRestore c51_r))]. split; [by left|]. vm_compute. tauto. Qed.
Print Assumptions C51_restore_refuted.

(** ** C52: clocks *)

(** A follower that received all messages in order, at instants that are on the same side of all deadlines
    as those of the leader, shows its clients what the leader shows. *)
Theorem C52_same_side_partial (ho : horder) (s : N) (h : list (N * sop)) (ts : list N) (t t' T T' : N) :
  no_flush h -> no_restore (writes h) ->
  length (slot_sent ho s h dict_empty) = length (writes h) -> length ts = length (writes h) ->
  forward_from t h T -> purges_due h -> times_forward t' ts T' ->
  Forall2 (same_side (deadlines dict_empty (writes h))) (write_times h) ts ->
  same_side (deadlines dict_empty (writes h)) T T' ->
  let f := follower_run ho s (deliver_at ts (slot_sent ho s h dict_empty)) dict_empty in
  write_id f = write_id (slot_run ho s h dict_empty) /\
  forall k, view T' f k = view T (slot_run ho s h dict_empty) k.
Proof.
  intros F R L Lt A P A' SS E f.
  assert (Q : f = slot_run ho s (writes_at ts (writes h)) dict_empty) by (by apply deliver_all).
  destruct (writes_writes_at ts (writes h) Lt) as [W1 W2]. destruct (writes_at_plain ts (writes h)) as [P1 P2].
  pose proof (skew_views ho s dict_empty h (writes_at ts (writes h)) t t' T T') as X. rewrite W1, W2, <- Q in X.
  assert (Y := forward_writes_at t' ts (writes h) T' Lt A'). destruct X as [X Z]; try assumption; [reflexivity|].
  split; [by rewrite X|]. intros k. by rewrite Z.
Qed.
Print Assumptions C52_same_side_partial.

(** More generally, for any two nodes that executed the same writes from the same state, with their own
    reads and purges in between. *)
Theorem C52_same_writes_partial (ho : horder) (s : N) (d : dict) (h g : list (N * sop)) (t t' T T' : N) :
  writes h = writes g -> no_flush h -> no_flush g -> no_restore (writes h) ->
  forward_from t h T -> forward_from t' g T' -> purges_due h -> purges_due g ->
  Forall2 (same_side (deadlines d (writes h))) (write_times h) (write_times g) ->
  same_side (deadlines d (writes h)) T T' ->
  write_id (slot_run ho s h d) = write_id (slot_run ho s g d) /\
  forall k, view T (slot_run ho s h d) k = view T' (slot_run ho s g d) k.
Proof. exact (skew_views ho s d h g t t' T T'). Qed.
Print Assumptions C52_same_writes_partial.

Definition c52_h : list (N * sop) := [(1000, rset rk x35 2000); (1500, rincr rk); (1700, SPurge (Entry 1600 rs rk)); (2100, rset rk2 x61 3000)].
Example C52_case :
  no_flush c52_h /\ no_restore (writes c52_h) /\ length (slot_sent rho rs c52_h dict_empty) = length (writes c52_h) /\
  forward_from 1000 c52_h 2200 /\ purges_due c52_h /\ times_forward 1100 [1100; 1800; 2000] 2999 /\
  Forall2 (same_side (deadlines dict_empty (writes c52_h))) (write_times c52_h) [1100; 1800; 2000] /\
  same_side (deadlines dict_empty (writes c52_h)) 2200 2999 /\
  view 2200 (slot_run rho rs c52_h dict_empty) rk2 = Some (DScalar (rv x61), 3000) /\
  view 2200 (slot_run rho rs c52_h dict_empty) rk = None.
Proof.
  assert (SD : forall a b, (a < 2000 <-> b < 2000) -> (a < 3000 <-> b < 3000) -> same_side (deadlines dict_empty (writes c52_h)) a b).
  { intros a b A B e [(k & x & C)|(w & I & N)]; [done|]. unfold lives.
    cbn in I. destruct I as [<-|[<-|[<-|[]]]]; cbn in N; subst; lia || done. }
  split; [repeat constructor; done|]. split; [by repeat constructor|]. split; [by vm_compute|].
  split; [cbn; lia|]. split; [repeat constructor; cbn; lia|]. split; [cbn; lia|].
  split.
  { change (write_times c52_h) with [1000; 1500; 2100].
    constructor; [apply SD; lia|]. constructor; [apply SD; lia|]. constructor; [apply SD; lia|]. constructor. }
  split; [apply SD; lia|].
  vm_compute. tauto.
Qed.

(** Without the assumption on clocks it is false: the follower applies the increment after the deadline. *)
Theorem C52_clock_skew_refuted :
  exists h ts, no_flush h /\ forward_from 0 h 1100 /\ times_forward 0 ts 1100 /\
    let f := follower_run rho rs (deliver_at ts (slot_sent rho rs h dict_empty)) dict_empty in
    length (slot_sent rho rs h dict_empty) = length ts /\ write_id f = write_id (slot_run rho rs h dict_empty) /\
    view 1100 (slot_run rho rs h dict_empty) rk = None /\
    view 1100 f rk = Some (DScalar (SInteger 1), 0).
Proof.
  exists [(900, SWrite (WSet rk (SInteger 5) (Specific 1000) NxXx_None)); (950, rincr rk)], [960; 1010].
  split; [repeat constructor; done|]. split; [cbn; lia|]. split; [cbn; lia|]. vm_compute. tauto.
Qed.
Print Assumptions C52_clock_skew_refuted.

(** ** C53: snapshots *)

(** What a follower makes of a snapshot, whatever slots it covers: if the first slot is empty it takes over
    a wrong sequence number for it and believes the snapshot to be complete; otherwise it fails.  No other
    slot is ever installed. *)
Theorem C53_snapshot_misread (ho : horder) (i : N) (d : dict) (l : list (N * dict)) :
  horder_ok ho -> i < slot_size -> write_id d < 2 ^ 16 -> N.of_nat (size (inner d)) < 2 ^ 16 ->
  N.of_nat (length (put_snapshot ho ((i, d) :: l))) < 2 ^ 48 ->
  read_snapshot (put_snapshot ho ((i, d) :: l)) =
    if decide (inner d = ∅) then ([(i, Dict (write_id d * 2 ^ 48) ∅)], true) else ([], false).
Proof. exact (snapshot_shifted ho i d l). Qed.
Print Assumptions C53_snapshot_misread.

(** In particular no slot with a key in it, and no slot of a full snapshot but the first, ever arrives. *)
Theorem C53_full_snapshot_misread (ho : horder) (b : db) (l : list (N * dict)) :
  horder_ok ho -> snapshot_slots slot_size b = Some l ->
  write_id (b 0) < 2 ^ 16 -> N.of_nat (size (inner (b 0))) < 2 ^ 16 -> N.of_nat (length (put_snapshot ho l)) < 2 ^ 48 ->
  forall j d, In (j, d) (fst (read_snapshot (put_snapshot ho l))) -> j = 0 /\ inner d = ∅.
Proof.
  intros HO E W S L j d I. unfold snapshot_slots in E. rewrite N.eqb_refl in E. injection E as E.
  assert (A : all_slots = 0 :: slots_from 1 (N.to_nat 16383)) by (vm_compute; reflexivity).
  rewrite A in E. cbn [map] in E.
  generalize dependent (map (fun i => (i, b i)) (slots_from 1 (N.to_nat 16383))). clear A. intros tl E. subst l.
  rewrite (snapshot_shifted ho 0 (b 0) tl HO eq_refl W S L) in I.
  destruct (decide (inner (b 0) = ∅)) as [Z|Z]; cbn [fst] in I; [|done].
  destruct I as [I|[]]. injection I as <- <-. done.
Qed.
Print Assumptions C53_full_snapshot_misread.

Definition c53_d : dict := slot_run rho rs [(10, rset rk x61 0)] dict_empty.
Example C53_case :
  horder_ok rho /\ rs < slot_size /\ write_id c53_d = 1 /\ size (inner c53_d) = 1%nat /\
  length (put_snapshot rho [(rs, c53_d)]) = 64%nat.
Proof. split; [apply horder_default_ok|]. vm_compute. tauto. Qed.
(** The claim is false. *)
Theorem C53_refuted : exists l, read_snapshot (put_snapshot rho l) <> (l, true).
Proof.
  exists [(rs, c53_d)]. rewrite snapshot_shifted.
  - rewrite decide_False; [done|]. intros E. assert (X : size (inner c53_d) = 0%nat) by (by rewrite E).
    vm_compute in X. done.
  - apply horder_default_ok.
  - by vm_compute.
  - by vm_compute.
  - by vm_compute.
  - by vm_compute.
Qed.
Print Assumptions C53_refuted.

(** ** C54: one slot's resync and the others *)

(** A resync of slot [s] locks every other slot, and only a stream that mentions a slot unlocks it again. *)
Theorem C54_others_stay_locked (s j : N) (f f1 f' : follower) (evs : list fevent) :
  sync_snapshot s f = Some f1 -> Forall (quiet_xfer j) (fo_xfers f) ->
  Forall (fun ev => match ev with VOpen _ str => ~ offers str j | _ => True end) evs ->
  fsteps evs f1 = Some f' -> fo_locks f' j = true.
Proof.
  intros S Q E H. destruct f as [b sy lk pm rx c xs]. cbn [sync_snapshot fo_xfers] in *. destruct sy; [done|].
  injection S as <-. apply (locked_steps j) in H as [H _]; [done|exact E|done|].
  cbn [fo_xfers]. apply List.Forall_app. split; [done|]. by constructor.
Qed.
Print Assumptions C54_others_stay_locked.

(** The stream that answers a request for slot [s] mentions no other slot. *)
Theorem C54_single_slot_stream (ho : horder) (s j : N) (d : dict) :
  horder_ok ho -> s < slot_size -> write_id d < 2 ^ 16 -> N.of_nat (size (inner d)) < 2 ^ 16 ->
  N.of_nat (length (put_snapshot ho [(s, d)])) < 2 ^ 48 ->
  offers (put_snapshot ho [(s, d)]) j -> j = s.
Proof.
  intros HO Hs Hw Hn HL O.
  assert (R : read_item (put_snapshot ho [(s, d)]) =
    if decide (inner d = ∅) then IInstall s (Dict (shifted_id d) ∅) (put_le 6 0 ++ put_option put_u16 None) else IFail).
  { unfold put_snapshot in *. cbn [map concat fst snd] in *. rewrite app_nil_r in *. rewrite <- app_assoc in *.
    apply read_shifted; try done. rewrite !app_length in *. lia. }
  destruct O as [str j d' r E|str i d' r j E O]; rewrite E in R; destruct (decide (inner d = ∅)); try done.
  - by injection R.
  - injection R as -> -> ->. exfalso. inversion O as [? ? ? ? X|? ? ? ? ? X _]; subst; vm_compute in X; done.
Qed.
Print Assumptions C54_single_slot_stream.

(** So the claim is false: after the resync of one slot has completed, the next command for any other slot
    stops the task for good; nothing but a change of leader makes it move again. *)
Definition c54_other : fwd_msg := FwdMsg 1 (rs + 1) (Some (WDel rk)).
Definition c54_d : dict := slot_run rho rs [(10, rset rk x61 0); (20, rdel rk)] dict_empty.
Definition c54_evs : list fevent :=
  to_gap ++ [VStep 10; VStep 10; VStep 10; VOpen 0 (put_snapshot rho [(rs, c54_d)]); VXfer 0; VXfer 0; VXfer 0; VXfer 0;
             VStep 20; VStep 20; VStep 20; VMsg c54_other; VStep 30; VStep 30].
Theorem C54_stall_refuted :
  exists f, ex_fo c54_evs = Some f /\ fo_syncing f = false /\ fo_xfers f = [] /\ fo_locks f rs = false /\
    fo_cmd f = CAwait c54_other /\
    forall evs f', ~ In VSyncAll evs -> fsteps evs f = Some f' -> fo_db f' = fo_db f /\ fo_cmd f' = CAwait c54_other.
Proof.
  assert (X : option_map (fun f => (fo_syncing f, fo_xfers f, fo_locks f rs, fo_cmd f, fo_locks f (rs + 1), fo_permit f)) (ex_fo c54_evs)
            = Some (false, [], false, CAwait c54_other, true, false)) by (vm_compute; reflexivity).
  destruct (ex_fo c54_evs) as [f|] eqn:E; [|discriminate X]. cbn [option_map] in X.
  injection X as X1 X2 X3 X4 X5 X6. exists f. split; [reflexivity|].
  split; [assumption|]. split; [assumption|]. split; [assumption|]. split; [assumption|].
  intros evs f' N H. apply (stuck_steps evs f f' c54_other); assumption.
Qed.
Print Assumptions C54_stall_refuted.
Example C54_case :
  exists f1, sync_snapshot rs fo_start = Some f1 /\ fo_locks f1 (rs + 1) = true /\
    offers (put_snapshot rho [(rs, c54_d)]) rs /\ write_id c54_d = 2 /\ inner c54_d = ∅.
Proof.
  eexists. split; [reflexivity|]. split; [reflexivity|]. split; [|split; [by vm_compute|]].
  - eapply off_here. vm_compute. reflexivity.
  - apply map_empty. intros k. vm_compute. reflexivity.
Qed.

(** ** C56: fan-out *)

(** A connection that has not failed has been sent, or has in its queue, exactly the messages taken from
    the forward channel since it was accepted, each once and in order, whatever happened to the other
    connections. *)
Theorem C56_fan_out (evs : list oevent) (cs : list conn) (i : nat) (c : conn) :
  osteps evs [] = Some cs -> nth_error cs i = Some c -> ~ In (OFail i) evs ->
  Forall (fun m => is_ping m = false) (pushes evs) ->
  payload (cn_out c) ++ cn_queue c = since i evs /\ cn_listed c = true.
Proof.
  intros H E F N. destruct (osteps_new evs [] cs i c H) as [(Q & O & P) B]; try done; [cbn; lia|].
  cbn [length] in O. rewrite Nat.sub_0_r in O. destruct (O (B F)). done.
Qed.
Print Assumptions C56_fan_out.

(** A connection that has failed was sent the beginning of that sequence. *)
Theorem C56_failed_prefix (evs : list oevent) (cs : list conn) (i : nat) (c : conn) :
  osteps evs [] = Some cs -> nth_error cs i = Some c ->
  Forall (fun m => is_ping m = false) (pushes evs) ->
  exists r, since i evs = payload (cn_out c) ++ r.
Proof.
  intros H E N. destruct (osteps_new evs [] cs i c H) as [(Q & O & P) B]; try done; [cbn; lia|].
  cbn [length] in P. by rewrite Nat.sub_0_r in P.
Qed.
Print Assumptions C56_failed_prefix.

(** And what the follower decodes from the bytes written is what was sent. *)
Theorem C56_bytes (evs : list oevent) (cs : list conn) (i : nat) (c : conn) :
  osteps evs [] = Some cs -> nth_error cs i = Some c -> ~ In (OFail i) evs ->
  Forall (fun m => is_ping m = false) (pushes evs) -> Forall sendable (cn_out c) -> cn_queue c = [] ->
  let s := put_msgs (cn_out c) in
  snd (receive_cmd (length s) s) = [] /\ payload (fst (receive_cmd (length s) s)) = since i evs.
Proof.
  intros H E F N W Q s. destruct (C56_fan_out evs cs i c H E F N) as [P _]. rewrite Q, app_nil_r in P.
  pose proof (receive_put_msgs (cn_out c) [] (length s) W (put_msgs_length (cn_out c))) as R.
  rewrite app_nil_r in R. fold s in R. rewrite R. cbn [fst snd].
  destruct (length s - length (cn_out c))%nat; cbn; rewrite app_nil_r; by split.
Qed.
Print Assumptions C56_bytes.

(** Two messages in the same queue, the second connection joining in between, the first failing. *)
Definition c56_m (i : N) : fwd_msg := FwdMsg i rs (Some (WDel rk)).
Definition c56_evs : list oevent :=
  [OJoin; OPush (c56_m 1); OJoin; OWrite 0; OPush (c56_m 2); OPing 1; OFail 0; OPush (c56_m 3); OWrite 1; OPush (c56_m 4); OWrite 1].
Example C56_case :
  Forall (fun m => is_ping m = false) (pushes c56_evs) /\
  osteps c56_evs [] = Some [Conn false false [] [c56_m 1]; Conn true true [c56_m 4] [msg_none; c56_m 2; c56_m 3]] /\
  since 1 c56_evs = [c56_m 2; c56_m 3; c56_m 4].
Proof. split; [by repeat constructor|]. vm_compute. tauto. Qed.

(** A join means that the connection is there. *)
Theorem C56_joined (evs : list oevent) (cs : list conn) :
  osteps evs [] = Some cs -> length cs = length (List.filter (fun ev => match ev with OJoin => true | _ => false end) evs).
Proof.
  assert (G : forall evs cs0 cs, osteps evs cs0 = Some cs ->
    length cs = (length cs0 + length (List.filter (fun ev => match ev with OJoin => true | _ => false end) evs))%nat).
  { clear. induction evs as [|ev evs IH]; intros cs0 cs H; cbn [osteps] in H; [injection H as <-; cbn; lia|].
    destruct (ostep ev cs0) as [cs1|] eqn:S; [|done]. rewrite (IH cs1 cs H). rewrite (ostep_length _ _ _ S).
    destruct ev; cbn [List.filter length]; lia. }
  intros H. by rewrite (G evs [] cs H).
Qed.
Print Assumptions C56_joined.
