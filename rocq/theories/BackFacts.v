(** Executions of a whole server as executions of Expire.v. *)
From Verif Require Export SpecBack.
From Verif Require Import ExpireFacts.
From Verif Require ClientsFacts.
From Coq Require Import Sorted.

Lemma thread_move ts a r rest : Permutation ts ((a :: r) :: rest) ->
  exists i, nth_error ts i = Some (a :: r) /\ Permutation (with_thread i r ts) ((match r with [] => [] | _ => [r] end) ++ rest).
Proof.
  intros P. assert (I : In (a :: r) ts) by (eapply Permutation_in; [symmetry; done|by left]).
  apply In_nth_error in I as [i I]. exists i. split; [done|]. destruct (thread_split _ _ _ _ I) as (l1 & l2 & -> & ->).
  assert (Q : Permutation (l1 ++ l2) rest).
  { apply (Permutation_cons_inv (a := a :: r)). rewrite <- P. apply Permutation_middle. }
  rewrite <- Q. apply Permutation_app_swap_app.
Qed.
Lemma flat_insert {A B} (f : A -> list B) (l : list A) i a : l !! i = Some a ->
  exists rest, Permutation (flat_map f l) (f a ++ rest) /\ forall b, Permutation (flat_map f (<[i := b]> l)) (f b ++ rest).
Proof.
  revert i. induction l as [|c l IH]; intros [|i] H; cbn in H; try done.
  - injection H as ->. exists (flat_map f l). split; [done|]. intros b. done.
  - destruct (IH i H) as (rest & P & Q). exists (f c ++ rest). cbn [flat_map insert list_insert]. split.
    + rewrite P. apply Permutation_app_swap_app.
    + intros b. change (<[Datatypes.S i := b]> (c :: l)) with (c :: <[i := b]> l). cbn [flat_map]. rewrite Q. apply Permutation_app_swap_app.
Qed.

Lemma steps_split ho a c x y : steps ho a x = Some y -> steps ho (a ++ c) x = steps ho c y.
Proof. revert x. induction a as [|e a IH]; intros x H; cbn in *; [by injection H as ->|]. destruct (step ho e x); [|done]. by apply IH. Qed.
Lemma looked_split ho a c x y : steps ho a x = Some y -> looked ho (a ++ c) x = N.max (looked ho a x) (looked ho c y).
Proof.
  revert x. induction a as [|e a IH]; intros x H; cbn in *; [injection H as ->; lia|]. destruct (step ho e x); [|done]. rewrite (IH _ H). lia.
Qed.
Lemma in_order_split ho a c x y : steps ho a x = Some y -> in_order ho a x -> in_order ho c y -> in_order ho (a ++ c) x.
Proof.
  revert x. induction a as [|e a IH]; intros x H O1 O2; cbn in *; [by injection H as ->|]. destruct O1 as [W O1]. split; [done|].
  destruct (step ho e x); [|done]. by apply IH.
Qed.

(** No thread waits to send something that no connection has to send. *)
Lemma flight_untold x w s : Permutation (w_threads w) (threads_of x) -> in_flight w s -> untold x s.
Proof.
  intros P (t & u & T & A). eapply Permutation_in in T; [|done]. apply in_app_or in T as [T|T].
  - apply in_flat_map in T as (k & K & T). exists k, u. split; [done|]. unfold to_tell. unfold k_thread in T. destruct (k_pc k) as [| |? ? ? es| | |]; try done.
    + destruct es as [|m es]; [done|]. destruct T as [<-|[]]. apply in_map_iff in A as (m' & E & I). by injection E as ->.
    + destruct T as [<-|[]]. apply in_app_or in A as [A|[A|[]]]; [|done]. by apply in_map_iff in A as (? & ? & _).
  - apply repeat_spec in T as ->. by destruct A as [A|[]].
Qed.

(** What one step of a server is in Expire.v. *)
Definition mirrors (en : env) (now : N) (u : turn) (x x' : leader) (w : world) : Prop :=
  exists evs w', steps (e_ho en) evs (World now (w_db w) (w_queue w) (w_scan w) (w_chan w) (w_threads w) (w_note w) (w_permit w) (w_purge w)) = Some w' /\
    same_world x' w' /\ ticks evs = [] /\
    (polite u x -> in_order (e_ho en) evs (World now (w_db w) (w_queue w) (w_scan w) (w_chan w) (w_threads w) (w_note w) (w_permit w) (w_purge w))) /\
    looked (e_ho en) evs (World now (w_db w) (w_queue w) (w_scan w) (w_chan w) (w_threads w) (w_note w) (w_permit w) (w_purge w)) = glance (now, u) x.

Lemma mirror_conn en now i x x' w : same_world x w -> leader_step en (now, LConn i) x = Some x' -> mirrors en now (LConn i) x x' w.
Proof.
  intros [E1 E2 E3 E4 P E5 E6 E7] H. destruct x as [[b xs fw ks] q sc n nt pm pc], w as [t b0 q0 sc0 xs0 ts nt0 pm0 pc0].
  cbn [ld_cl ld_queue ld_scan ld_scans ld_note ld_permit ld_purge cs_db cs_exp w_db w_queue w_scan w_chan w_threads w_note w_permit w_purge] in *. subst b0 q0 sc0 xs0 nt0 pm0 pc0.
  unfold mirrors. cbn [w_db w_queue w_scan w_chan w_threads w_note w_permit w_purge].
  unfold leader_step, cstep in H. cbn [snd fst cs_conns cs_db cs_exp cs_fwd] in H. destruct (ks !! i) as [k|] eqn:K; [|done].
  destruct (conn_step en now k b xs fw) as [[[[k' b'] xs'] fw']|] eqn:C; [|done]. injection H as <-.
  destruct (flat_insert k_thread ks i k K) as (rest & P1 & P2). specialize (P2 k').
  unfold threads_of in P. cbn [ld_cl cs_conns ld_scans] in P. rewrite P1 in P.
  (* a step that Expire.v does not see *)
  assert (Quiet : b' = b -> xs' = xs -> Permutation (k_thread k ++ repeat [AScan] n) (k_thread k' ++ repeat [AScan] (asks_scan (Some k) + n)) ->
    exists evs w', steps (e_ho en) evs (World now b q sc xs ts nt pm pc) = Some w' /\
      same_world (Leader (Clients b' xs' fw' (<[i := k']> ks)) q sc (asks_scan (Some k) + n) nt pm pc) w' /\ ticks evs = [] /\
      (polite (LConn i) (Leader (Clients b xs fw ks) q sc n nt pm pc) -> in_order (e_ho en) evs (World now b q sc xs ts nt pm pc)) /\
      looked (e_ho en) evs (World now b q sc xs ts nt pm pc) = 0%N).
  { intros -> -> PM. exists [], (World now b q sc xs ts nt pm pc). split; [done|]. split; [|done]. split; try done. cbn [w_threads]. unfold threads_of. cbn [ld_cl cs_conns ld_scans].
    rewrite P2, P, <- !app_assoc, !(Permutation_app_comm rest), !app_assoc. by rewrite PM. }
  destruct k as [ins pck out]. cbn [conn_step] in C.
  destruct pck as [|q1 [|c cs] rs|q1 cs rs [|m es] [|f fs] o|[|s ss]|f|h].
  - destruct ins as [|q1 ins']; [done|].
    assert (Q0 : forall pc' , (k', b', xs', fw') = (Client ins' pc' out, b, xs, fw) -> k_thread k' = [] ->
      exists evs w', steps (e_ho en) evs (World now b q sc xs ts nt pm pc) = Some w' /\
      same_world (Leader (Clients b' xs' fw' (<[i := k']> ks)) q sc (asks_scan (Some (Client (q1 :: ins') KIdle out)) + n) nt pm pc) w' /\ ticks evs = [] /\
      (polite (LConn i) (Leader (Clients b xs fw ks) q sc n nt pm pc) -> in_order (e_ho en) evs (World now b q sc xs ts nt pm pc)) /\
      looked (e_ho en) evs (World now b q sc xs ts nt pm pc) = 0%N).
    { intros pc' [= -> -> -> ->] E. apply Quiet; try done. by rewrite E. }
    assert (Q1 : forall r, Some (Client ins' r out, b, xs, fw) = Some (k', b', xs', fw') -> k_thread (Client ins' r out) = [] ->
      exists evs w', steps (e_ho en) evs (World now b q sc xs ts nt pm pc) = Some w' /\
      same_world (Leader (Clients b' xs' fw' (<[i := k']> ks)) q sc (asks_scan (Some (Client (q1 :: ins') KIdle out)) + n) nt pm pc) w' /\ ticks evs = [] /\
      (polite (LConn i) (Leader (Clients b xs fw ks) q sc n nt pm pc) -> in_order (e_ho en) evs (World now b q sc xs ts nt pm pc)) /\
      looked (e_ho en) evs (World now b q sc xs ts nt pm pc) = 0%N).
    { intros r [= <- <- <- <-] E. by eapply Q0. }
    assert (G : forall pl, match pl with
                 | AErr x => Some (Client ins' (KWrite (error_reply en q1 x)) out, b, xs, fw)
                 | APanic => Some (Client ins' (KEnd HPanic) out, b, xs, fw)
                 | AOk PFlush => Some (Client ins' (KFlush all_slots) out, b, xs, fw)
                 | AOk (PCmds cs) => Some (Client ins' (KRun q1 cs []) out, b, xs, fw)
                 end = Some (k', b', xs', fw') ->
      exists evs w', steps (e_ho en) evs (World now b q sc xs ts nt pm pc) = Some w' /\
      same_world (Leader (Clients b' xs' fw' (<[i := k']> ks)) q sc (asks_scan (Some (Client (q1 :: ins') KIdle out)) + n) nt pm pc) w' /\ ticks evs = [] /\
      (polite (LConn i) (Leader (Clients b xs fw ks) q sc n nt pm pc) -> in_order (e_ho en) evs (World now b q sc xs ts nt pm pc)) /\
      looked (e_ho en) evs (World now b q sc xs ts nt pm pc) = 0%N).
    { intros [[cs|]|e|] E; try by eapply Q1.
      injection E as <- <- <- <-. exists [EFlushall], (World now b q sc xs (ts ++ [map AFlush all_slots ++ [AScan]]) nt pm pc).
      split; [done|]. split; [|by repeat split]. split; try done. cbn [w_threads]. unfold threads_of. cbn [ld_cl cs_conns ld_scans asks_scan Nat.add].
      rewrite P2, P. cbn [k_thread k_pc app]. rewrite <- Permutation_cons_append. done. }
    destruct q1; first [by eapply Q1|by eapply G].
  - apply Quiet; [by injection C as <- <- <- <-|by injection C as <- <- <- <-|]. injection C as <- <- <- <-. by destruct (answer en now q1 rs).
  - destruct (db_exec (e_ho en) now c b) as [b1 o] eqn:X. injection C as <- <- <- <-.
    assert (PT : Permutation (spawn (wo_exp o) ts) (threads_of (Leader (Clients b1 xs fw (<[i := Client ins (KSend q1 cs rs (wo_exp o) (wo_fwd o) (wo_res o)) out]> ks)) q sc n nt pm pc))).
    { unfold threads_of. cbn [ld_cl cs_conns ld_scans]. rewrite P2. cbn [k_thread k_pc app] in P |- *. unfold spawn. destruct (wo_exp o) as [|m es]; [done|].
      rewrite P. cbn [app]. by rewrite <- Permutation_cons_append. }
    exists [ECmd c], (World now b1 q sc xs (spawn (wo_exp o) ts) nt pm pc). split.
    { cbn [steps step]. destruct c as [wc|rc]; cbn [db_exec] in X; [by rewrite X|]. destruct (db_read (e_ho en) now rc b) as [b2 o2]. by injection X as <- <-. }
    split; [split; try done|]. split; [done|]. split.
    + intros PO. cbn [in_order]. split; [|by destruct (step _ _ _)]. destruct c as [wc|rc]; [|done]. cbn [waits]. intros FL.
      specialize (PO _ _ _ _ _ K eq_refl). apply PO. eapply flight_untold; [|exact FL]. cbn [w_threads]. unfold threads_of. cbn [ld_cl cs_conns ld_scans]. by rewrite P1.
    + cbn [looked look]. by destruct (step _ _ _).
  - injection C as <- <- <- <-. apply Quiet; try done. destruct o; done.
  - injection C as <- <- <- <-. apply Quiet; try done.
  - injection C as <- <- <- <-. cbn [k_thread k_pc app map] in P. destruct (thread_move _ _ _ _ P) as (j & J & PJ).
    exists [EThread j], (World now b q sc (xs ++ [m]) (with_thread j (map ASend es) ts) nt pm pc). split; [cbn [steps step]; by rewrite J|].
    split; [split; try done; cbn [w_threads]; unfold threads_of; cbn [ld_cl cs_conns ld_scans asks_scan Nat.add]; rewrite PJ, P2; cbn [k_thread k_pc]; by destruct es|].
    split; [done|]. split; [|cbn [looked look]; by destruct (step _ _ _)]. intros _. cbn [in_order waits w_threads]. rewrite J. split; [done|]. by destruct (step _ _ _).
  - injection C as <- <- <- <-. cbn [k_thread k_pc app map] in P. destruct (thread_move _ _ _ _ P) as (j & J & PJ).
    exists [EThread j], (World now b q sc (xs ++ [m]) (with_thread j (map ASend es) ts) nt pm pc). split; [cbn [steps step]; by rewrite J|].
    split; [split; try done; cbn [w_threads]; unfold threads_of; cbn [ld_cl cs_conns ld_scans asks_scan Nat.add]; rewrite PJ, P2; cbn [k_thread k_pc]; by destruct es|].
    split; [done|]. split; [|cbn [looked look]; by destruct (step _ _ _)]. intros _. cbn [in_order waits w_threads]. rewrite J. split; [done|]. by destruct (step _ _ _).
  - injection C as <- <- <- <-. apply Quiet; try done.
  - injection C as <- <- <- <-. cbn [k_thread k_pc app map] in P. destruct (thread_move _ _ _ _ P) as (j & J & PJ).
    exists [EThread j], (World now (db_set s (slot_flush (b s)) b) q sc xs (with_thread j (map AFlush ss ++ [AScan]) ts) nt pm pc). split; [cbn [steps step]; by rewrite J|].
    split; [split; try done; cbn [w_threads]; unfold threads_of; cbn [ld_cl cs_conns ld_scans asks_scan Nat.add]; rewrite PJ, P2; cbn [k_thread k_pc]; by destruct ss|].
    split; [done|]. split; [|cbn [looked look]; by destruct (step _ _ _)]. intros _. cbn [in_order waits w_threads]. rewrite J. split; [done|]. by destruct (step _ _ _).
  - injection C as <- <- <- <-. apply Quiet; try done.
  - done.
Qed.

(** The tasks do the same whatever the threads are. *)
Lemma task_threads ho e now b q sc xs ts ts' nt pm pc w' : In e [EScan; ERecv; ENote; EPurge; EWake] ->
  step ho e (World now b q sc xs ts nt pm pc) = Some w' ->
  w_threads w' = ts /\ step ho e (World now b q sc xs ts' nt pm pc) =
    Some (World (w_clock w') (w_db w') (w_queue w') (w_scan w') (w_chan w') ts' (w_note w') (w_permit w') (w_purge w')).
Proof.
  intros I H. destruct I as [<-|[<-|[<-|[<-|[<-|[]]]]]]; cbn [step purge_step] in H |- *;
    repeat (match type of H with context [match ?a with _ => _ end] => destruct a end; try done); by injection H as <-.
Qed.
Lemma mirror_event en now u e x x' w : In e [EScan; ERecv; ENote; EPurge; EWake] -> turn_event u = Some e -> same_world x w ->
  leader_step en (now, u) x = Some x' -> mirrors en now u x x' w.
Proof.
  intros I U [E1 E2 E3 E4 P E5 E6 E7] H. destruct x as [[b xs fw ks] q sc n nt pm pc], w as [t b0 q0 sc0 xs0 ts nt0 pm0 pc0].
  cbn [ld_cl ld_queue ld_scan ld_scans ld_note ld_permit ld_purge cs_db cs_exp w_db w_queue w_scan w_chan w_threads w_note w_permit w_purge] in *. subst b0 q0 sc0 xs0 nt0 pm0 pc0.
  unfold mirrors. cbn [w_db w_queue w_scan w_chan w_threads w_note w_permit w_purge].
  assert (T : task_step (e_ho en) now e (Leader (Clients b xs fw ks) q sc n nt pm pc) = Some x').
  { unfold leader_step in H. cbn [snd fst] in H. destruct u; try done; cbn [turn_event] in *; by injection U as <-. }
  clear H. unfold task_step in T. destruct (step _ e _) as [w1|] eqn:S; [|done]. destruct (task_threads _ _ _ _ _ _ _ _ ts _ _ _ _ I S) as (TT & S').
  destruct w1 as [t1 b1 q1 sc1 xs1 ts1 nt1 pm1 pc1]. cbn [w_threads w_clock w_db w_queue w_scan w_chan w_note w_permit w_purge] in *. injection T as <-. subst ts1.
  exists [e], (World t1 b1 q1 sc1 xs1 ts nt1 pm1 pc1). split; [cbn [steps]; by rewrite S'|]. split.
  { split; try done. cbn [w_threads]. unfold threads_of. cbn [ld_cl cs_conns ld_scans]. by rewrite repeat_length. }
  split; [destruct I as [<-|[<-|[<-|[<-|[<-|[]]]]]]; done|]. split.
  - intros _. cbn [in_order]. rewrite S'. split; [|done]. destruct I as [<-|[<-|[<-|[<-|[<-|[]]]]]]; done.
  - cbn [looked]. rewrite S', N.max_0_r. destruct I as [<-|[<-|[<-|[<-|[<-|[]]]]]]; destruct u; try done; unfold glance; cbn; by destruct pc.
Qed.
Lemma mirror_scan en now x x' w : same_world x w -> leader_step en (now, LScan) x = Some x' -> mirrors en now LScan x x' w.
Proof.
  intros [E1 E2 E3 E4 P E5 E6 E7] H. destruct x as [[b xs fw ks] q sc n nt pm pc], w as [t b0 q0 sc0 xs0 ts nt0 pm0 pc0].
  cbn [ld_cl ld_queue ld_scan ld_scans ld_note ld_permit ld_purge cs_db cs_exp w_db w_queue w_scan w_chan w_threads w_note w_permit w_purge] in *. subst b0 q0 sc0 xs0 nt0 pm0 pc0.
  unfold mirrors. cbn [w_db w_queue w_scan w_chan w_threads w_note w_permit w_purge].
  cbn [leader_step snd fst turn_event task_step step] in H. destruct n as [|n]; [done|]. cbn [repeat nth_error] in H. destruct sc as [|]; [done|]. injection H as <-.
  unfold threads_of in P. cbn [ld_cl cs_conns ld_scans repeat] in P. rewrite <- Permutation_middle in P. destruct (thread_move _ _ _ _ P) as (j & J & PJ).
  exists [EThread j], (World now b q (Some q) xs (with_thread j [] ts) nt pm pc). split; [cbn [steps step]; by rewrite J|]. split.
  { split; try done. unfold threads_of. cbn [w_threads ld_cl cs_conns ld_scans]. rewrite PJ. cbn. by rewrite ?drop_0, repeat_length. }
  split; [done|]. split; [|cbn [looked look]; by destruct (step _ _ _)]. intros _. cbn [in_order waits w_threads]. rewrite J. split; [done|]. by destruct (step _ _ _).
Qed.
Lemma mirror en ev x x' w : same_world x w -> leader_step en ev x = Some x' -> mirrors en (fst ev) (snd ev) x x' w.
Proof.
  intros S H. destruct ev as [now u]. cbn [fst snd]. destruct u as [i| | | | | | |].
  - by apply mirror_conn.
  - by apply mirror_scan.
  - eapply mirror_event; try done. by left.
  - eapply mirror_event; try done. by right; left.
  - eapply mirror_event; try done. by right; right; left.
  - eapply mirror_event; try done. by right; right; right; left.
  - eapply mirror_event; try done. by right; right; right; right; left.
  - destruct x as [[b xs fw ks] q sc n nt pm pc]. cbn in H. destruct fw as [|f fw]; [done|]. injection H as <-. destruct S as [E1 E2 E3 E4 P E5 E6 E7].
    exists [], (World now (w_db w) (w_queue w) (w_scan w) (w_chan w) (w_threads w) (w_note w) (w_permit w) (w_purge w)). repeat split; done.
Qed.

Lemma mirror_steps en evs x x' w : same_world x w -> leader_steps en evs x = Some x' ->
  exists wevs w', steps (e_ho en) wevs w = Some w' /\ same_world x' w' /\ ticks wevs = map fst evs /\
    (all_polite en evs x -> in_order (e_ho en) wevs w) /\ looked (e_ho en) wevs w = glances en evs x.
Proof.
  revert x w. induction evs as [|[now u] evs IH]; intros x w S H; cbn [leader_steps all_polite glances map fst snd] in *.
  - injection H as <-. by exists [], w.
  - destruct (leader_step en (now, u) x) as [y|] eqn:E; [|done]. destruct (mirror _ _ _ _ _ S E) as (e1 & w1 & S1 & W1 & T1 & O1 & L1). cbn [fst snd] in *.
    destruct (IH y w1 W1 H) as (e2 & w2 & S2 & W2 & T2 & O2 & L2).
    set (w0 := World now (w_db w) (w_queue w) (w_scan w) (w_chan w) (w_threads w) (w_note w) (w_permit w) (w_purge w)) in *.
    assert (ST : step (e_ho en) (ETick now) w = Some w0) by (by destruct w).
    exists (ETick now :: e1 ++ e2), w2. split; [cbn [steps]; rewrite ST; by rewrite (steps_split _ _ _ _ _ S1)|]. split; [done|]. split.
    { cbn. unfold ticks in *. rewrite flat_map_app, T1, T2. done. }
    split.
    + intros [PO AP]. cbn [in_order]. rewrite ST. split; [by destruct w|]. eapply in_order_split; eauto.
    + cbn [looked]. rewrite ST, (looked_split _ _ _ _ _ S1), L1, L2. destruct w; cbn [look]. lia.
Qed.
Lemma same_start b ins t : b = db_empty -> same_world (leader_start b ins) (w_start t).
Proof.
  intros ->. split; try done. unfold threads_of. cbn [w_threads w_start leader_start ld_cl cs_start cs_conns ld_scans repeat]. rewrite app_nil_r.
  induction ins as [|l ins IH]; [done|]. cbn. done.
Qed.

(** ** Clocks *)
Lemma ticks_forward t wevs l : ticks wevs = l -> StronglySorted N.le (t :: l) -> clock_forward t wevs.
Proof.
  intros <-. revert t. induction wevs as [|e wevs IH]; intros t S; [done|]. destruct e; cbn [clock_forward]; try (by apply IH).
  cbn in S. inversion S as [|? ? S1 F]; subst. inversion F; subst. split; [done|]. by apply IH.
Qed.
Lemma ticks_peak t wevs : peak t wevs = t \/ In (peak t wevs) (ticks wevs).
Proof.
  revert t. induction wevs as [|e wevs IH]; intros t; [by left|]. destruct e as [now| | | | | | | | | |]; cbn [peak]; try apply IH. cbn [ticks flat_map app].
  destruct (N.max_spec t (peak now wevs)) as [[_ ->]|[_ ->]]; [|by left]. right. destruct (IH now) as [->|I]; [by left|by right].
Qed.

(** ** Scans and FLUSHALL *)
Definition debt (x : leader) : nat :=
  list_sum (map (fun k => flush_count (k_in k) + if flushing k then 1 else 0) (cs_conns (ld_cl x))) + ld_scans x.
Lemma sum_update {A} (f : A -> nat) l i a b : l !! i = Some a -> (list_sum (map f (<[i := b]> l)) + f a = list_sum (map f l) + f b)%nat.
Proof.
  revert i; induction l as [|c l IH]; intros [|i] H; cbn in H; try done.
  - injection H as ->. cbn. lia.
  - change (<[Datatypes.S i := b]> (c :: l)) with (c :: <[i := b]> l). cbn [map].
    change (list_sum (f c :: ?z)) with (f c + list_sum z)%nat. specialize (IH i H). lia.
Qed.
Lemma debt_step en ev x x' : leader_step en ev x = Some x' -> (debt x = debt x' + scan_count [ev])%nat.
Proof.
  intros H. destruct x as [[b xs fw ks] q sc n nt pm pc], ev as [now u]. unfold debt. cbn [ld_cl cs_conns ld_scans].
  assert (T : forall e, In e [EScan; ERecv; ENote; EPurge; EWake] -> task_step (e_ho en) now e (Leader (Clients b xs fw ks) q sc n nt pm pc) = Some x' ->
    cs_conns (ld_cl x') = ks /\ ld_scans x' = n).
  { intros e I T. unfold task_step in T. destruct (step _ e _) as [w1|] eqn:S; [|done]. destruct (task_threads _ _ _ _ _ _ _ _ [] _ _ _ _ I S) as (TT & _).
    destruct w1. cbn in TT. injection T as <-. subst. cbn. by rewrite repeat_length. }
  destruct u as [i| | | | | | |]; cbn [leader_step snd fst turn_event] in H.
  - destruct (cstep en (i, now) _) as [cl'|] eqn:C; [|done]. injection H as <-. unfold cstep in C. cbn [fst snd cs_conns cs_db cs_exp cs_fwd ld_cl ld_scans] in *.
    destruct (ks !! i) as [k|] eqn:K; [|done]. destruct (conn_step en now k b xs fw) as [[[[k' b'] xs'] fw']|] eqn:E; [|done]. injection C as <-. cbn [cs_conns].
    pose proof (sum_update (fun k => flush_count (k_in k) + if flushing k then 1 else 0) ks i k k' K) as SU. cbn beta in SU.
    assert (Z : (flush_count (k_in k) + (if flushing k then 1 else 0) = flush_count (k_in k') + (if flushing k' then 1 else 0) + asks_scan (Some k))%nat).
    { clear SU K. destruct k as [ins pck out]. cbn [conn_step] in E. destruct pck as [|q1 [|c cs] rs|q1 cs rs [|m es] [|f fs] o|[|s ss]|f|h]; try done;
        try (injection E as <- <- <- <-; cbn; lia).
      - destruct ins as [|q1 ins']; [done|].
        assert (G : forall pl, match pl with
                 | AErr x => Some (Client ins' (KWrite (error_reply en q1 x)) out, b, xs, fw)
                 | APanic => Some (Client ins' (KEnd HPanic) out, b, xs, fw)
                 | AOk PFlush => Some (Client ins' (KFlush all_slots) out, b, xs, fw)
                 | AOk (PCmds cs) => Some (Client ins' (KRun q1 cs []) out, b, xs, fw)
                 end = Some (k', b', xs', fw') -> k_in k' = ins' /\ flushing k' = match pl with AOk PFlush => true | _ => false end).
        { intros [[]|e|] G; injection G as <- <- <- <-; done. }
        assert (W : plan_of now q1 = AOk PFlush -> flush_count (q1 :: ins') = S (flush_count ins')) by (intros W; apply ClientsFacts.plan_flush in W; destruct q1; try done; by destruct W).
        assert (W' : forall a, q1 = QFlushall a -> plan_of now q1 = AOk PFlush) by (by intros a ->).
        destruct (decide (flush_count (q1 :: ins') = S (flush_count ins'))) as [D|D].
        + assert (exists a, q1 = QFlushall a) as [a ->] by (destruct q1; try (unfold flush_count in D; cbn in D; lia); by eexists).
          cbn in E. injection E as <- <- <- <-. cbn. lia.
        + assert (D' : flush_count (q1 :: ins') = flush_count ins') by (destruct q1; first [done|by destruct D]). cbn [k_in asks_scan]. change (flushing (Client (q1 :: ins') KIdle out)) with false. rewrite D'.
          assert (NP : match plan_of now q1 with AOk PFlush => true | _ => false end = false) by (destruct (plan_of now q1) as [[]|e|]; try done; by destruct D; apply W).
          assert (X : (exists s, q1 = QSyncsnapshot s) \/ k_in k' = ins' /\ flushing k' = match plan_of now q1 with AOk PFlush => true | _ => false end).
          { destruct q1; first [right; match type of E with context [plan_of now ?r] => exact (G (plan_of now r) E) end|left; by eexists]. }
          destruct X as [[s ->]|[G1 G2]]; [injection E as <- <- <- <-; cbn [k_in flushing k_pc]; lia|]. rewrite G1, G2, NP. lia.
      - injection E as <- <- <- <-. cbn. destruct (answer en now q1 rs); cbn; lia.
      - destruct (db_exec (e_ho en) now c b) as [b1 o]. injection E as <- <- <- <-. cbn. lia.
      - injection E as <- <- <- <-. cbn. destruct o; cbn; lia. }
    cbn [scan_count List.filter snd length]. lia.
  - unfold task_step in H. cbn [step] in H. destruct n as [|n]; [done|]. cbn [repeat nth_error] in H. destruct sc; [done|]. injection H as <-.
    change (scan_count [(now, LScan)]) with 1%nat. cbn [ld_cl cs_conns ld_scans]. change (with_thread 0 [] ([AScan] :: repeat [AScan] n)) with (repeat [AScan] n).
    rewrite drop_0, repeat_length. lia.
  - destruct (T EScan ltac:(by left) H) as [-> ->]. cbn. lia.
  - destruct (T ERecv ltac:(by right; left) H) as [-> ->]. cbn. lia.
  - destruct (T ENote ltac:(by right; right; left) H) as [-> ->]. cbn. lia.
  - destruct (T EPurge ltac:(by right; right; right; left) H) as [-> ->]. cbn. lia.
  - destruct (T EWake ltac:(by right; right; right; right; left) H) as [-> ->]. cbn. lia.
  - destruct (cs_fwd _); [done|]. injection H as <-. cbn [ld_cl cs_conns ld_scans]. change (scan_count [(now, LSent)]) with 0%nat. lia.
Qed.
Lemma debt_steps en evs x x' : leader_steps en evs x = Some x' -> (debt x = debt x' + scan_count evs)%nat.
Proof.
  revert x. induction evs as [|ev evs IH]; intros x H; cbn [leader_steps] in H; [injection H as ->; cbn; lia|].
  destruct (leader_step en ev x) as [y|] eqn:E; [|done]. rewrite (debt_step _ _ _ _ E), (IH _ H).
  assert (A : scan_count (ev :: evs) = (scan_count [ev] + scan_count evs)%nat) by (unfold scan_count; cbn; by destruct (snd ev)). lia.
Qed.
