(** The purge task comes to rest (C103): it never spins, and when it rests nothing in the queue is due. *)
From Verif Require Import ExpireFacts PropExpire.
Import ListNotations.
Open Scope N_scope.

(** ** How much work is left for the purge task while the clock stands still *)

Definition pc_rank (t : N) (pc : ppc) : nat :=
  match pc with
  | PIdle | PSleep _ => 0
  | PNext next => if (next =? 0) || (t <? next) then 1 else 4
  | PLoop now => if t <=? now then 2 else 5
  | PEntry now _ => if t <=? now then 3 else 6
  | PStart => 3
  end.
Definition work (x : world) : nat :=
  (2 * length (w_queue x) + (if w_permit x then 4 else 0) + pc_rank (w_clock x) (w_purge x))%nat.

Lemma q_remove_head e q : (length (q_remove e (e :: q)) <= length q)%nat.
Proof.
  unfold q_remove. cbn [List.filter]. rewrite bool_decide_true by done. cbn [negb].
  induction q as [|a q IH]; cbn; [lia|]. destruct (negb (bool_decide (a = e))); cbn; lia.
Qed.

(** A step of the purge task does some of the work and touches nothing else. *)
Lemma purge_works ho x x' : w_scan x = None -> step ho EPurge x = Some x' ->
  (work x' < work x)%nat /\ w_scan x' = None /\ w_clock x' = w_clock x /\ w_chan x' = w_chan x /\
  w_threads x' = w_threads x /\ w_note x' = w_note x.
Proof.
  destruct x as [t b q sc ch ts nt pm pc]. cbn [w_scan]. intros ->. cbn [step purge_step]. unfold work.
  destruct pc as [|now|now e|next| |w].
  - intros [= <-]. cbn. rewrite N.leb_refl. split; [lia|done].
  - destruct q as [|e q].
    + intros [= <-]. cbn. split; [|done]. destruct (t <=? now); lia.
    + destruct (now <? en_at e) eqn:L; intros [= <-]; cbn [w_queue w_permit w_clock w_purge pc_rank].
      * split; [|done]. destruct (t <=? now) eqn:T.
        -- replace (t <? en_at e) with true by lia. rewrite orb_true_r. lia.
        -- destruct ((en_at e =? 0) || (t <? en_at e)); lia.
      * split; [|done]. pose proof (q_remove_head e q). cbn [length]. destruct (t <=? now); lia.
  - intros [= <-]. cbn. split; [|done]. destruct (t <=? now); lia.
  - destruct (next =? 0) eqn:Z.
    + intros [= <-]. cbn. rewrite Z. cbn. split; [lia|done].
    + destruct (t <? next) eqn:T; intros [= <-]; cbn; rewrite Z, T; cbn; (split; [lia|done]).
  - destruct pm; [|done]. intros [= <-]. cbn. split; [lia|done].
  - destruct pm; [|done]. intros [= <-]. cbn. split; [lia|done].
Qed.

Lemma purges_work ho n : forall x x', w_scan x = None -> steps ho (repeat EPurge n) x = Some x' ->
  (n + work x' <= work x)%nat /\ w_scan x' = None /\ w_clock x' = w_clock x /\ w_chan x' = w_chan x /\
  w_threads x' = w_threads x /\ w_note x' = w_note x.
Proof.
  induction n as [|n IH]; intros x x' E H; cbn in H.
  - injection H as <-. split; [lia|done].
  - destruct (purge_step x) as [y|] eqn:P; cbn [step] in H.
    + assert (Q : step ho EPurge x = Some y) by (destruct x; exact P).
      assert (H' : steps ho (repeat EPurge n) y = Some x') by (destruct x; cbn [step] in H; by rewrite P in H).
      destruct (purge_works ho x y E Q) as (W & S & A1 & A2 & A3 & A4).
      destruct (IH y x' S H') as (W' & S' & B1 & B2 & B3 & B4). split; [lia|]. split; [done|]. repeat split; congruence.
    + exfalso. destruct x; cbn [step] in H. by rewrite P in H.
Qed.

Lemma purge_runs ho : forall k x, (work x <= k)%nat -> w_scan x = None ->
  exists n x', steps ho (repeat EPurge n) x = Some x' /\ step ho EPurge x' = None.
Proof.
  induction k as [|k IH]; intros x W E; (destruct (step ho EPurge x) as [y|] eqn:P; [|by exists 0%nat, x]);
    destruct (purge_works ho x y E P) as (W' & S & _).
  - lia.
  - destruct (IH y ltac:(lia) S) as (n & x' & H & N). exists (Datatypes.S n), x'. split; [|done].
    cbn [repeat steps]. by rewrite P.
Qed.

(** From any state whatever in which the queue lock is free, the purge task alone takes at most so many steps,
    and then it waits: without a permit, for a notification or for its timer.  It never spins. *)
Theorem C103_never_spins (ho : horder) (x : world) :
  w_scan x = None ->
  (forall n x', steps ho (repeat EPurge n) x = Some x' -> (n <= 2 * length (w_queue x) + 10)%nat) /\
  exists n x', steps ho (repeat EPurge n) x = Some x' /\ step ho EPurge x' = None /\
    w_permit x' = false /\ (w_purge x' = PIdle \/ exists w, w_purge x' = PSleep w) /\
    w_clock x' = w_clock x /\ w_chan x' = w_chan x /\ w_threads x' = w_threads x /\ w_note x' = w_note x.
Proof.
  intros E. split.
  - intros n x' H. destruct (purges_work ho n x x' E H) as (W & _).
    assert (R : (pc_rank (w_clock x) (w_purge x) <= 6)%nat).
    { destruct (w_purge x); cbn; repeat case_match; lia. }
    unfold work in W. destruct (w_permit x); lia.
  - destruct (purge_runs ho (work x) x (le_n _) E) as (n & x' & H & N). exists n, x'.
    destruct (purges_work ho n x x' E H) as (_ & S & A). split; [done|]. split; [done|].
    assert (B : w_permit x' = false /\ (w_purge x' = PIdle \/ exists w, w_purge x' = PSleep w)).
    { destruct x' as [t b q sc ch ts nt pm pc]. cbn in S, N |- *. subst sc.
      destruct pc as [|now|now e|next| |w]; try done.
      - destruct q as [|e q]; [done|]. destruct (now <? en_at e); done.
      - destruct (next =? 0); [done|]. destruct (t <? next); done.
      - destruct pm; [done|]. split; [done|by left].
      - destruct pm; [done|]. split; [done|right; by exists w]. }
    destruct B as [B1 B2]. split; [done|]. split; [done|]. tauto.
Qed.
Print Assumptions C103_never_spins.

(** ** What is left in the queue *)

Lemma fresh_sleep ho x x' w : step ho EPurge x = Some x' -> w_purge x' = PSleep w -> w_clock x' < w.
Proof.
  destruct x as [t b q sc ch ts nt pm pc]. cbn [step purge_step]. intros H E.
  destruct pc as [|now|now e|next| |v].
  - by injection H as <-.
  - destruct sc; [done|]. destruct q as [|e q]; [by injection H as <-|].
    destruct (now <? en_at e); by injection H as <-.
  - by injection H as <-.
  - destruct (next =? 0) eqn:Z; [by injection H as <-|]. destruct (t <? next) eqn:T; injection H as <-; [|done].
    cbn in E |- *. injection E as <-. lia.
  - destruct pm; [|done]. by injection H as <-.
  - destruct pm; [|done]. by injection H as <-.
Qed.
Lemma last_purge ho n : forall x x', steps ho (repeat EPurge (S n)) x = Some x' ->
  exists y, steps ho (repeat EPurge n) x = Some y /\ step ho EPurge y = Some x'.
Proof.
  induction n as [|n IH]; intros x x' H.
  - exists x. split; [done|]. cbn [repeat steps] in H. destruct (step ho EPurge x); [|done]. by injection H as <-.
  - change (repeat EPurge (S (S n))) with (EPurge :: repeat EPurge (S n)) in H. cbn [steps] in H.
    destruct (step ho EPurge x) as [z|] eqn:Z; [|done]. destruct (IH z x' H) as (y & A & B).
    exists y. split; [|done]. change (repeat EPurge (S n)) with (EPurge :: repeat EPurge n). cbn [steps]. by rewrite Z.
Qed.

Lemma purge_queue ho x x' P e : safe P x -> step ho EPurge x = Some x' ->
  (In e (w_queue x') -> In e (w_queue x)) /\ (In e (w_queue x) -> P < en_at e -> In e (w_queue x')).
Proof.
  destruct x as [t b q sc ch ts nt pm pc]. intros [_ _ _ _ S] H. cbn [step purge_step] in H. cbn [w_purge] in S.
  destruct pc as [|now|now e'|next| |v].
  - by injection H as <-.
  - destruct sc; [done|]. destruct q as [|e' q]; [by injection H as <-|].
    destruct (now <? en_at e') eqn:L; injection H as <-; [done|]. cbn [w_queue]. rewrite q_remove_in. cbn in S.
    split; [tauto|]. intros I G. split; [done|]. intros ->. lia.
  - by injection H as <-.
  - destruct (next =? 0); [by injection H as <-|]. destruct (t <? next); by injection H as <-.
  - destruct pm; [|done]. by injection H as <-.
  - destruct pm; [|done]. by injection H as <-.
Qed.
Lemma purges_queue ho n P e : forall x x', safe P x -> steps ho (repeat EPurge n) x = Some x' ->
  (In e (w_queue x') -> In e (w_queue x)) /\ (In e (w_queue x) -> P < en_at e -> In e (w_queue x')).
Proof.
  induction n as [|n IH]; intros x x' S H; cbn [repeat steps] in H.
  - by injection H as <-.
  - destruct (step ho EPurge x) as [y|] eqn:E; [|done].
    pose proof (safe_step ho EPurge x y P S E) as S'. cbn in S'. try specialize (S' I).
    destruct (purge_queue ho x y P e S E) as [A B]. destruct (IH y x' S' H) as [A' B']. split; [tauto|].
    intros I G. apply B'; [by apply B|done].
Qed.

(** In an execution whose clock never steps back: let the purge task run until it rests, with no notification
    on its way.  Then the queue holds exactly the entries it held that are not due, and the task sleeps
    no longer than until the first of them. *)
Theorem C103_drains (ho : horder) (t : N) (evs : list event) (x x' : world) (n : nat) :
  clock_forward t evs -> steps ho evs (w_start t) = Some x -> w_scan x = None -> w_note x = false ->
  steps ho (repeat EPurge (S n)) x = Some x' -> step ho EPurge x' = None ->
  (forall e, In e (w_queue x') <-> In e (w_queue x) /\ w_clock x < en_at e) /\
  (w_purge x' = PIdle /\ w_queue x' = [] \/
   exists w, w_purge x' = PSleep w /\ w_clock x < w /\ Forall (fun e => w <= en_at e) (w_queue x')).
Proof.
  intros F H SC NT HP R.
  pose proof (safe_steps _ _ _ _ _ (safe_start t) H) as S. cbn [w_start w_clock] in S.
  pose proof (forward_peak ho evs (w_start t) x F H) as P. cbn [w_start w_clock] in P. rewrite P in S.
  rewrite N.max_r in S by (rewrite <- P; apply peak_ge).
  destruct (purges_work ho _ x x' SC HP) as (_ & SC' & CL & _ & _ & NT').
  assert (B : w_permit x' = false /\ (w_purge x' = PIdle \/ exists w, w_purge x' = PSleep w)).
  { destruct (C103_never_spins ho x' SC') as [_ (m & y & A & _ & B1 & B2 & _)].
    destruct m; cbn [repeat steps] in A; [by injection A as <-|]. by rewrite R in A. }
  destruct B as [PM PC].
  assert (H' : steps ho (evs ++ repeat EPurge (Datatypes.S n)) (w_start t) = Some x').
  { eapply steps_app_2; eassumption. }
  assert (U : unattended x') by (split; congruence).
  destruct (C46_sleep ho t _ x' H' U) as [C1 C2].
  assert (D : w_purge x' = PIdle /\ w_queue x' = [] \/
    exists w, w_purge x' = PSleep w /\ w_clock x < w /\ Forall (fun e => w <= en_at e) (w_queue x')).
  { destruct PC as [I|[w I]]; [left; split; [done|by apply C2]|right]. exists w. split; [done|]. split.
    - destruct (last_purge ho n x x' HP) as (y & _ & L). rewrite <- CL. by apply (fresh_sleep ho y x' w).
    - apply List.Forall_forall. intros e J. by apply (C1 w e). }
  split; [|done]. intros e. destruct (purges_queue ho _ _ e x x' S HP) as [Q1 Q2]. split.
  - intros J. split; [by apply Q1|]. destruct D as [[_ Z]|(w & _ & L & A)]; [by rewrite Z in J|].
    rewrite List.Forall_forall in A. specialize (A e J). cbn in A. lia.
  - intros [J L]. by apply Q2.
Qed.
Print Assumptions C103_drains.
(** Two deadlines, 1500 and 1700, and the clock at 1600 when the purge task first runs: nine steps later it sleeps
    until 1700. *)
Definition c103_k : bytes := [x6c].
Definition c103_evs : list event :=
  [ex_setx 1500; EThread 0; ERecv; ENote; ECmd (CWrite (WSet c103_k (SString [x76]) (Specific 1700) NxXx_None));
   EThread 0; ERecv; ETick 1600].
Example C103_case :
  clock_forward 1000 c103_evs /\
  option_map (fun x => (w_scan x, w_note x, w_queue x)) (ex_world c103_evs) =
    Some (None, false, [Entry 1500 ex_slot ex_k; Entry 1700 (get_slot c103_k) c103_k]) /\
  option_map (fun x => (w_purge x, w_queue x, match step horder_default EPurge x with None => true | _ => false end))
    (ex_world (c103_evs ++ repeat EPurge 9)) = Some (PSleep 1700, [Entry 1700 (get_slot c103_k) c103_k], true).
Proof. split; [cbn; lia|]. vm_compute. done. Qed.
