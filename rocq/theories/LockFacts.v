(** Lemmas about the connection limit and about locks. *)
From Verif Require Import BytesFacts SpecLocks.
From Verif Require Export Limit Locks.
Local Open Scope nat_scope.

(** ** Connections *)
Record limits_ok (max : N) (x : limits) : Prop := {
  lo_fresh : forall h, In h (lm_handlers x) -> (h < lm_next x)%N;
  lo_nodup : List.NoDup (lm_handlers x);
  lo_max : (handlers_alive x + in_flight x <= max)%N;
  lo_sum : lm_phase x <> LDown -> (lm_permits x + handlers_alive x + in_flight x = max)%N }.

Lemma filter_out h (l : list N) :
  List.NoDup l -> In h l -> length l = S (length (List.filter (fun x => negb (N.eqb h x)) l)).
Proof.
  intros H I. induction H as [|y l Ny H IH]; [done|]. cbn. destruct (N.eqb_spec h y) as [Q|Q]; cbn.
  - subst y. f_equal. clear IH I H. induction l as [|z l IH]; [done|]. cbn. destruct (N.eqb_spec h z) as [Q|Q].
    + subst z. exfalso. apply Ny. by left.
    + cbn. f_equal. apply IH. intros X. apply Ny. by right.
  - f_equal. apply IH. destruct I as [I|I]; [congruence|done].
Qed.
Lemma filter_nodup {A} (f : A -> bool) l : List.NoDup l -> List.NoDup (List.filter f l).
Proof.
  intros H. induction H as [|y l Ny H IH]; cbn; [constructor|]. destruct (f y); [|done]. constructor; [|done].
  intros I. apply filter_In in I as [I _]. done.
Qed.
Lemma limit_new_ok max : limits_ok max (limit_new max).
Proof.
  split; cbn; [by intros h []|constructor| |]; unfold handlers_alive, in_flight; cbn; lia.
Qed.
Lemma lstep_ok max ev x x' : lstep ev x = Some x' -> limits_ok max x -> limits_ok max x'.
Proof.
  intros H [A B C D]. destruct x as [p ph hs nx]. unfold handlers_alive, in_flight in *. cbn [lm_permits lm_phase lm_handlers lm_next] in *.
  destruct ev as [| | | | |h how]; cbn [lstep] in H.
  - destruct ph; try done. destruct (N.eqb_spec p 0) as [Q|Q]; [done|]. injection H as <-. specialize (D ltac:(done)).
    split; unfold handlers_alive, in_flight; cbn; try done; lia.
  - destruct ph; try done. injection H as <-. specialize (D ltac:(done)).
    split; unfold handlers_alive, in_flight; cbn [lm_permits lm_phase lm_handlers lm_next].
    + intros h [<-|I]; [lia|]. specialize (A h I). lia.
    + constructor; [|done]. intros I. specialize (A nx I). lia.
    + cbn [length]. lia.
    + intros _. cbn [length]. lia.
  - destruct ph as [|b|b|]; try done. specialize (D ltac:(done)). destruct (64 <? b)%N; injection H as <-;
      split; unfold handlers_alive, in_flight; cbn; try done; lia.
  - destruct ph as [|b|b|]; try done. specialize (D ltac:(done)). injection H as <-.
    split; unfold handlers_alive, in_flight; cbn; try done; lia.
  - destruct ph as [|b|b|]; try done; injection H as <-; split; unfold handlers_alive, in_flight; cbn; try done; lia.
  - destruct (existsb (N.eqb h) hs) eqn:E; [|done]. injection H as <-.
    apply existsb_exists in E as (h' & I & E). apply N.eqb_eq in E. subst h'.
    pose proof (filter_out h hs B I) as L.
    split; unfold handlers_alive, in_flight; cbn [lm_permits lm_phase lm_handlers lm_next].
    + intros k K. apply filter_In in K as [K _]. by apply A.
    + by apply filter_nodup.
    + lia.
    + intros P. specialize (D P). lia.
Qed.
Lemma lsteps_ok max evs : forall x x', lsteps evs x = Some x' -> limits_ok max x -> limits_ok max x'.
Proof.
  induction evs as [|ev evs IH]; intros x x' H O; cbn in H; [by injection H as <-|].
  destruct (lstep ev x) as [x1|] eqn:E; [|done]. apply (IH x1 x' H). by apply (lstep_ok max ev x).
Qed.

(** ** Locks *)

(** The order in which locks are taken. *)
Definition rank (k : lk) : N := match k with KQueue => 0 | KSlot i => i + 1 | KChild => slot_size + 1 end.
(** From [held], the operations take locks in increasing order only, release what they hold, and end with
    nothing. *)
Fixpoint disciplined (held : list lk) (ops : list lop) : Prop :=
  match ops with
  | [] => held = []
  | Lock k :: r => (forall h, In h held -> (rank h < rank k)%N) /\ (rank k <= slot_size + 1)%N /\ disciplined (k :: held) r
  | Unlock k :: r => In k held /\ disciplined (List.remove lk_eq_dec k held) r
  end.

Lemma remove_not (k : lk) l : ~ In k l -> List.remove lk_eq_dec k l = l.
Proof. apply notin_remove. Qed.
(** A section on a slot, with locks of lower rank held. *)
Lemma on_slot_disciplined held s r :
  (forall h, In h held -> rank h = 0%N) -> disciplined held r -> disciplined held (on_slot s ++ r).
Proof.
  intros H D. unfold on_slot. destruct (N.ltb_spec s slot_size) as [L|L]; [|done]. cbn [app disciplined].
  split; [intros h I; rewrite (H h I); cbn; lia|]. split; [cbn; lia|]. split; [by left|].
  cbn [List.remove]. destruct (lk_eq_dec (KSlot s) (KSlot s)) as [_|N]; [|done].
  rewrite notin_remove; [done|]. intros I. specialize (H _ I). cbn in H. lia.
Qed.
Lemma sections_disciplined held l r :
  (forall h, In h held -> rank h = 0%N) -> disciplined held r -> disciplined held (flat_map on_slot l ++ r).
Proof.
  intros H D. induction l as [|s l IH]; [done|]. cbn [flat_map]. rewrite <- app_assoc. by apply on_slot_disciplined.
Qed.
Lemma queue_disciplined r : disciplined [] r -> disciplined [] (Lock KQueue :: Unlock KQueue :: r).
Proof.
  intros D. cbn. split; [by intros h []|]. split; [lia|]. split; [by left|]. by destruct (lk_eq_dec KQueue KQueue).
Qed.
Lemma scan_disciplined l : disciplined [] (scan_code l).
Proof.
  unfold scan_code. cbn [disciplined]. split; [by intros h []|]. split; [cbn; lia|].
  apply sections_disciplined; [by intros h [<-|[]]|]. cbn. split; [by left|]. by destruct (lk_eq_dec KQueue KQueue).
Qed.
Lemma purge_disciplined l r :
  disciplined [] r -> disciplined [] (flat_map (fun s => [Lock KQueue; Unlock KQueue] ++ on_slot s) l ++ r).
Proof.
  intros D. induction l as [|s l IH]; [done|]. cbn [flat_map]. rewrite <- !app_assoc. cbn [app].
  apply queue_disciplined. apply on_slot_disciplined; [by intros h []|done].
Qed.

(** A list of slots in increasing order, from [i] on. *)
Fixpoint increasing (i : N) (l : list N) : Prop :=
  match l with [] => True | s :: r => (i <= s < slot_size)%N /\ increasing (s + 1) r end.
Lemma slots_from_increasing n : forall i, (i + N.of_nat n <= slot_size)%N -> increasing i (slots_from i n).
Proof.
  induction n as [|n IH]; intros i H; cbn [slots_from increasing]; [done|]. split; [lia|]. apply IH. lia.
Qed.
Lemma all_slots_increasing : increasing 0 all_slots.
Proof. unfold all_slots. apply slots_from_increasing. rewrite N2Nat.id. lia. Qed.

(** Taking the locks of [l] while those of [held] (of lower rank) are held. *)
Lemma lock_all_disciplined l : forall i held r,
  increasing i l -> (forall h, In h held -> (rank h < i + 1)%N) ->
  disciplined (rev (map KSlot l) ++ held) r -> disciplined held (map (fun s => Lock (KSlot s)) l ++ r).
Proof.
  induction l as [|s l IH]; intros i held r I H D; [done|]. cbn [map app disciplined]. destruct I as [Is I].
  split; [intros h Ih; specialize (H h Ih); cbn; lia|]. split; [cbn; lia|].
  apply (IH (s + 1)%N); [done| |].
  - intros h [<-|Ih]; [cbn; lia|]. specialize (H h Ih). lia.
  - cbn [map rev] in D. by rewrite <- app_assoc in D.
Qed.
Lemma increasing_notin l : forall i s, increasing i l -> (s < i)%N -> ~ In s l.
Proof.
  induction l as [|x l IH]; intros i s I L; [by intros []|]. destruct I as [Ix I]. intros [->|J]; [lia|].
  by apply (IH (x + 1)%N s I); [lia|].
Qed.
(** Releasing them, in any arrangement. *)
Lemma remove_app (k : lk) a b : List.remove lk_eq_dec k (a ++ b) = List.remove lk_eq_dec k a ++ List.remove lk_eq_dec k b.
Proof. induction a as [|x a IH]; cbn; [done|]. destruct (lk_eq_dec k x); cbn; by rewrite IH. Qed.
Lemma unlock_all_disciplined l : forall i, increasing i l -> disciplined (rev (map KSlot l)) (map (fun s => Unlock (KSlot s)) l).
Proof.
  induction l as [|s l IH]; intros i I; [done|]. destruct I as [Is I]. cbn [map rev disciplined].
  split; [apply in_or_app; right; by left|]. rewrite remove_app. cbn [List.remove].
  destruct (lk_eq_dec (KSlot s) (KSlot s)) as [_|N]; [|done]. rewrite app_nil_r, notin_remove; [by apply (IH (s + 1)%N)|].
  intros J. apply in_rev in J. apply in_map_iff in J as (t & E & J). injection E as ->.
  by apply (increasing_notin l (s + 1)%N s I); [lia|].
Qed.
Lemma snapshot_disciplined l :
  increasing 0 l ->
  disciplined [] (map (fun s => Lock (KSlot s)) l ++ [Lock KChild; Unlock KChild] ++ map (fun s => Unlock (KSlot s)) l).
Proof.
  intros I. apply (lock_all_disciplined l 0); [done|by intros h []|]. rewrite app_nil_r. cbn [app disciplined].
  assert (B : forall h, In h (rev (map KSlot l)) -> exists s, h = KSlot s /\ (s < slot_size)%N).
  { intros h J. apply in_rev in J. apply in_map_iff in J as (s & <- & J). exists s. split; [done|].
    clear -I J. revert I. generalize 0%N. induction l as [|x l IH]; intros i I; [done|]. destruct I as [Ix I].
    destruct J as [->|J]; [lia|]. by apply (IH J (x + 1)%N). }
  split; [intros h J; destruct (B h J) as (s & -> & L); cbn; lia|]. split; [cbn; lia|]. split; [by left|].
  cbn [List.remove]. destruct (lk_eq_dec KChild KChild) as [_|N]; [|done].
  rewrite notin_remove; [by apply (unlock_all_disciplined l 0)|]. intros J. destruct (B _ J) as (s & E & _). done.
Qed.

Lemma code_disciplined j : disciplined [] (code j).
Proof.
  assert (Z : forall h, In h (@nil lk) -> rank h = 0%N) by (by intros h []).
  destruct j as [l|s|s|o|l| |l|s|]; cbn [code].
  - rewrite <- (app_nil_r (flat_map on_slot l)). by apply sections_disciplined.
  - rewrite <- (app_nil_r (on_slot s)). by apply on_slot_disciplined.
  - rewrite <- (app_nil_r (on_slot s)). by apply on_slot_disciplined.
  - apply sections_disciplined; [done|]. destruct o; [apply scan_disciplined|done].
  - apply scan_disciplined.
  - by apply queue_disciplined.
  - apply purge_disciplined. by apply queue_disciplined.
  - apply snapshot_disciplined. destruct (s =? slot_size)%N; [apply all_slots_increasing|].
    destruct (N.ltb_spec s slot_size) as [L|L]; [|done]. cbn [increasing]. split; [lia|done].
  - cbn. split; [by intros h []|]. split; [lia|]. split; [by left|]. by destruct (lk_eq_dec KChild KChild).
Qed.

(** The invariant. *)
Definition tasks_ok (ts : list task) : Prop :=
  exclusive ts /\ forall t, In t ts -> disciplined (tk_held t) (tk_todo t).

Lemma nth_with_task i j t u ts :
  nth_error ts i = Some u -> nth_error (with_task i t ts) j = if Nat.eqb j i then Some t else nth_error ts j.
Proof.
  intros E. unfold with_task. assert (L : i < length ts) by (apply nth_error_Some; congruence).
  assert (F : length (firstn i ts) = i) by (rewrite firstn_length; lia).
  destruct (Nat.eqb_spec j i) as [->|N].
  - rewrite nth_error_app2 by lia. by rewrite F, Nat.sub_diag.
  - destruct (Nat.lt_ge_cases j i) as [Q|Q].
    + rewrite nth_error_app1 by lia. clear -Q. revert i j Q. induction ts as [|x ts IH]; intros [|i] [|j] Q; cbn; try done; try lia.
      apply IH. lia.
    + rewrite nth_error_app2 by lia. rewrite F. replace (j - i) with (S (j - S i)) by lia. cbn.
      clear -Q N. assert (exists d, j = S i + d) as [d ->] by (exists (j - S i); lia). replace (S i + d - S i) with d by lia.
      clear. revert i. induction ts as [|x ts IH]; intros i; cbn; [by destruct d|]. destruct i as [|i]; [done|]. apply (IH i).
Qed.
Lemma taken_spec k ts : taken k ts = true <-> exists j t, nth_error ts j = Some t /\ In k (tk_held t).
Proof.
  unfold taken. rewrite existsb_exists. split.
  - intros (t & I & H). apply bool_decide_eq_true, elem_of_list_In in H. apply In_nth_error in I as [j I]. by exists j, t.
  - intros (j & t & I & H). exists t. split; [by eapply nth_error_In|]. apply bool_decide_eq_true. by apply elem_of_list_In.
Qed.
Lemma jstep_ok ev ts ts' : jstep ev ts = Some ts' -> tasks_ok ts -> tasks_ok ts'.
Proof.
  intros H [X D]. destruct ev as [j|i]; cbn [jstep] in H.
  - injection H as <-. split.
    + intros a b s t k Ea Eb Ia Ib.
      assert (K : forall a s, nth_error (ts ++ [Task (code j) []]) a = Some s -> In k (tk_held s) -> nth_error ts a = Some s).
      { clear. intros a s E I. destruct (Nat.lt_ge_cases a (length ts)) as [Q|Q]; [by rewrite nth_error_app1 in E|].
        rewrite nth_error_app2 in E by done. destruct (a - length ts) as [|q]; cbn in E; [|by destruct q].
        injection E as <-. done. }
      apply (X a b s t k); auto.
    + intros t I. apply in_app_or in I as [I|[<-|[]]]; [by apply D|]. apply code_disciplined.
  - destruct (nth_error ts i) as [[[|[k|k] r] held]|] eqn:E; try done.
    + destruct (taken k ts) eqn:T; [done|]. injection H as <-.
      assert (NT : forall j t, nth_error ts j = Some t -> ~ In k (tk_held t)).
      { intros j t Ej I. assert (taken k ts = true) by (apply taken_spec; by exists j, t). congruence. }
      pose proof (D _ (nth_error_In _ _ E)) as DT. cbn in DT. destruct DT as (R & B & DT). split.
      * intros a b s t x Ea Eb Ia Ib. rewrite (nth_with_task i _ _ _ ts E) in Ea; rewrite (nth_with_task i _ _ _ ts E) in Eb.
        destruct (Nat.eqb_spec a i) as [Qa|Qa], (Nat.eqb_spec b i) as [Qb|Qb]; subst; try done.
        -- injection Ea as <-. cbn in Ia. destruct Ia as [<-|Ia]; [by destruct (NT b t Eb)|]. by apply (X i b _ t x E Eb).
        -- injection Eb as <-. cbn in Ib. destruct Ib as [<-|Ib]; [by destruct (NT a s Ea)|]. by apply (X a i s _ x Ea E).
        -- by apply (X a b s t x).
      * intros t I. apply In_nth_error in I as [j I]. rewrite (nth_with_task i _ _ _ ts E) in I.
        destruct (Nat.eqb_spec j i) as [Q|Q]; [injection I as <-; done|]. apply D. by eapply nth_error_In.
    + injection H as <-. pose proof (D _ (nth_error_In _ _ E)) as DT. cbn in DT. destruct DT as (I0 & DT). split.
      * assert (S : forall x, In x (List.remove lk_eq_dec k held) -> In x held).
        { intros x Ix. by apply in_remove in Ix as [Ix _]. }
        intros a b s t x Ea Eb Ia Ib. rewrite (nth_with_task i _ _ _ ts E) in Ea; rewrite (nth_with_task i _ _ _ ts E) in Eb.
        destruct (Nat.eqb_spec a i) as [Qa|Qa], (Nat.eqb_spec b i) as [Qb|Qb]; subst; try done.
        -- injection Ea as <-. apply (X i b _ t x E Eb); [by apply S|done].
        -- injection Eb as <-. apply (X a i s _ x Ea E); [done|by apply S].
        -- by apply (X a b s t x).
      * intros t I. apply In_nth_error in I as [j I]. rewrite (nth_with_task i _ _ _ ts E) in I.
        destruct (Nat.eqb_spec j i) as [Q|Q]; [injection I as <-; done|]. apply D. by eapply nth_error_In.
Qed.
Lemma jsteps_ok evs : forall ts ts', jsteps evs ts = Some ts' -> tasks_ok ts -> tasks_ok ts'.
Proof.
  induction evs as [|ev evs IH]; intros x x' H O; cbn in H; [by injection H as <-|].
  destruct (jstep ev x) as [x1|] eqn:E; [|done]. apply (IH x1 x' H). by apply (jstep_ok ev x).
Qed.
Lemma tasks_start : tasks_ok [].
Proof. split; [|by intros t []]. intros i j s t k E. by destruct i. Qed.

(** A task that waits wants a lock of higher rank than all it holds. *)
Lemma waiting_rank ts i k r h x : tasks_ok ts -> nth_error ts i = Some (Task (Lock k :: r) h) -> In x h -> (rank x < rank k <= slot_size + 1)%N.
Proof.
  intros [_ D] E I. specialize (D _ (nth_error_In _ _ E)). cbn in D. destruct D as (R & B & _). specialize (R x I). lia.
Qed.
Lemma no_deadlock ts (D : nat -> Prop) : tasks_ok ts -> ~ deadlock ts D.
Proof.
  intros O [[i Di] W].
  assert (K : forall m i k r h, D i -> nth_error ts i = Some (Task (Lock k :: r) h) -> (N.to_nat (slot_size + 1) - N.to_nat (rank k) < m) -> False).
  { induction m as [|m IH]; [lia|]. intros a k r h Da E L. destruct (W a Da) as (b & Db & k' & r' & h' & t & E' & Eb & I).
    rewrite E in E'. injection E' as <- <- <-. destruct (W b Db) as (c & _ & k2 & r2 & h2 & t2 & E2 & _ & _).
    rewrite E2 in Eb. injection Eb as <-. cbn in I. pose proof (waiting_rank ts b k2 r2 h2 k O E2 I) as R.
    apply (IH b k2 r2 h2 Db E2). lia. }
  destruct (W i Di) as (j & _ & k & r & h & t & E & _ & _). by apply (K _ i k r h Di E (Nat.lt_succ_diag_r _)).
Qed.
Lemma progress ts : tasks_ok ts -> (exists t, In t ts /\ tk_todo t <> []) -> exists i ts', jstep (JRun i) ts = Some ts'.
Proof.
  intros O (t & I & T). apply In_nth_error in I as [i I].
  assert (K : forall m i t, nth_error ts i = Some t -> tk_todo t <> [] ->
            (forall k r, tk_todo t = Lock k :: r -> N.to_nat (slot_size + 1) - N.to_nat (rank k) < m) ->
            exists i ts', jstep (JRun i) ts = Some ts').
  { induction m as [|m IH]; intros a [todo held] E N L; cbn [tk_todo] in *.
    - destruct todo as [|[k|k] r]; [done|specialize (L k r eq_refl); lia|]. exists a. cbn [jstep]. rewrite E. by eexists.
    - destruct todo as [|[k|k] r]; [done| |exists a; cbn [jstep]; rewrite E; by eexists].
      specialize (L k r eq_refl).
      destruct (taken k ts) eqn:TK; [|exists a; cbn [jstep]; rewrite E, TK; by eexists].
      apply taken_spec in TK as (b & u & Eb & Ib). destruct u as [todo' held']. cbn in Ib.
      apply (IH b (Task todo' held') Eb).
      + cbn. intros ->. destruct O as [_ D]. specialize (D _ (nth_error_In _ _ Eb)). cbn in D. subst. done.
      + cbn. intros k' r' ->. pose proof (waiting_rank ts b k' r' held' k O Eb Ib). lia. }
  apply (K (S (N.to_nat (slot_size + 1))) i t I T). intros k r _. lia.
Qed.
Definition work (ts : list task) : nat := list_sum (map (fun t => length (tk_todo t)) ts).
Lemma work_with_task i t u ts : nth_error ts i = Some u -> work (with_task i t ts) + length (tk_todo u) = work ts + length (tk_todo t).
Proof.
  unfold work, with_task. revert i. induction ts as [|x ts IH]; intros [|i] E; cbn [nth_error] in E; try done.
  - injection E as ->. change (skipn 1 (u :: ts)) with ts. cbn [firstn app map]. change (list_sum (?a :: ?b)) with (a + list_sum b). lia.
  - specialize (IH i E). change (skipn (S (S i)) (x :: ts)) with (skipn (S i) ts).
    cbn [firstn app map]. change (list_sum (?a :: ?b)) with (a + list_sum b). lia.
Qed.
Lemma jrun_work i ts ts' : jstep (JRun i) ts = Some ts' -> S (work ts') = work ts.
Proof.
  cbn [jstep]. destruct (nth_error ts i) as [[[|[k|k] r] held]|] eqn:E; try done.
  - destruct (taken k ts); [done|]. intros H. injection H as <-. pose proof (work_with_task i (Task r (k :: held)) _ ts E) as W. cbn in W. lia.
  - intros H. injection H as <-. pose proof (work_with_task i (Task r (List.remove lk_eq_dec k held)) _ ts E) as W. cbn in W. lia.
Qed.
Lemma all_finish ts : tasks_ok ts -> exists is ts', jsteps (map JRun is) ts = Some ts' /\ Forall finished ts'.
Proof.
  remember (work ts) as n eqn:W. revert ts W. induction n as [|n IH]; intros ts W O.
  - exists [], ts. split; [done|]. apply List.Forall_forall. intros t I.
    assert (L : tk_todo t = []).
    { destruct (tk_todo t) eqn:Q; [done|]. exfalso. unfold work in W. apply in_split in I as (a & b & ->).
      rewrite map_app, list_sum_app in W. cbn in W. rewrite Q in W. cbn in W. lia. }
    split; [done|]. destruct O as [_ D]. specialize (D t I). by rewrite L in D.
  - assert (U : exists t, In t ts /\ tk_todo t <> []).
    { clear IH O. unfold work in W. induction ts as [|t ts IH]; cbn in W; [done|]. destruct (tk_todo t) eqn:Q.
      - cbn in W. destruct (IH W) as (u & I & N). exists u. split; [by right|done].
      - exists t. split; [by left|]. by rewrite Q. }
    destruct (progress ts O U) as (i & ts1 & S1). pose proof (jrun_work i ts ts1 S1) as W1.
    destruct (IH ts1 ltac:(lia) (jstep_ok _ _ _ S1 O)) as (is & ts' & R & F).
    exists (i :: is), ts'. split; [|done]. cbn [map jsteps]. by rewrite S1.
Qed.
