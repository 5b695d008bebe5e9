(** C108: does anything that is written to a leader reach a follower?  The parts (snapshots, locks, forwarded
    commands) put together, over whole executions of Tasks.v. *)
From Verif Require Import SpecArrive FollowerFacts TasksFacts SerdeFacts PropTasks.
Local Open Scope N_scope.

(** ** What a follower makes of such an answer *)

Lemma read_item_extends s t j d r : read_item s = IInstall j d r -> read_item (s ++ t) = IInstall j d (r ++ t).
Proof.
  assert (E16 : extends (get_option get_u16)) by (unfold get_option, get_u16; ext; apply ext_le).
  unfold read_item. destruct (get_option get_u16 s) as [[i|] s1| |] eqn:E; try done.
  rewrite (E16 _ _ _ t E). destruct (get_dict s1) as [d' s2| |] eqn:D; try done. rewrite (ext_dict _ _ _ t D).
  destruct (i <? slot_size); [|done]. congruence.
Qed.

(** Nothing can be read from the rest, and what is read first is an empty slot 0. *)
Definition barren (s : bytes) : Prop := forall j d r, read_item s <> IInstall j d r.
Definition zero_only (Q : N -> Prop) (s : bytes) : Prop :=
  forall j d r, read_item s = IInstall j d r -> j = 0 /\ (exists w, Q w /\ w < 2 ^ 16 /\ d = Dict (w * 2 ^ 48) ∅) /\ barren r.

Lemma answer_zero P slot s :
  slot = 0 \/ slot = slot_size -> answers P slot s -> zero_only (fun w => exists b, P b /\ write_id (b 0) = w) s.
Proof.
  intros S (ho & b & l & rest & HO & (W & Z) & HP & L & E & B) j d r R.
  assert (exists tl, l = (0, b 0) :: tl) as (tl & ->).
  { unfold snapshot_slots in L. destruct S as [-> | ->].
    - cbn in L. injection L as <-. by eexists.
    - rewrite N.eqb_refl in L. injection L as <-. assert (A : all_slots = 0 :: slots_from 1 (N.to_nat 16383)) by (vm_compute; reflexivity).
      rewrite A. cbn [map]. by eexists. }
  apply (read_item_extends _ rest) in R. rewrite <- E in R, B. unfold put_snapshot in *. cbn [map concat fst snd] in *.
  set (tail := concat (map (fun p => put_option put_u64 (Some (fst p)) ++ put_dict ho (snd p)) tl) ++ put_option put_u16 None) in *.
  rewrite <- !app_assoc in *. fold tail in R, B.
  rewrite read_shifted in R; try done; [|rewrite !app_length in *; lia].
  destruct (decide (inner (b 0) = ∅)); [|done]. injection R as <- <- R. split; [done|]. split; [exists (write_id (b 0)); split; [by exists b|done]|].
  intros j' d' r' X. apply (read_item_extends _ rest) in X. rewrite <- R in X. vm_compute in X. done.
Qed.

(** ** The invariant *)
Definition xfer_zero (Q : N -> Prop) (p : xpc) : Prop :=
  match p with
  | XConnect s => s = 0 \/ s = slot_size
  | XRead s => zero_only Q s
  | XUnlock j r => j = 0 /\ barren r
  | XNotify => True
  end.
Definition at_zero (c : tpc) : Prop := match c with TTry m | TSync m => fm_slot m = 0 | _ => True end.
Definition cut_off (Q : N -> Prop) (x : tasks) : Prop :=
  (forall j, j <> 0 -> tk_locks x j = true /\ tk_db x j = dict_empty) /\
  Forall at_zero (tk_cmds x) /\ Forall (xfer_zero Q) (tk_xfers x).

Lemma with_xfer_forall (R : xpc -> Prop) k p xs :
  match p with Some q => R q | None => True end -> Forall R xs -> Forall R (with_xfer k p xs).
Proof.
  intros P F. unfold with_xfer. apply List.Forall_app. split; [by apply Forall_take|].
  apply List.Forall_app. split; [destruct p; by repeat constructor|by apply Forall_drop].
Qed.
Lemma nth_forall {A} (R : A -> Prop) l k a : Forall R l -> nth_error l k = Some a -> R a.
Proof. intros F E. apply nth_error_In in E. rewrite List.Forall_forall in F. by apply F. Qed.

Lemma cut_off_step P ev x x' :
  let Q w := exists b, P b /\ write_id (b 0) = w in
  cut_off Q x ->
  match ev with UOpen k s => forall slot, nth_error (tk_xfers x) k = Some (XConnect slot) -> answers P slot s | _ => True end ->
  tstep ev x = Some x' -> cut_off Q x'.
Proof.
  intros Q (L & C & X) A H. destruct x as [b sy lk pm ws ch rx cs xs]. cbn [tk_locks tk_db tk_cmds tk_xfers] in *.
  assert (U : forall k c, at_zero c -> Forall at_zero (<[k := c]> cs)) by (intros k c K; by apply Forall_insert).
  destruct ev as [c m|c|k now|k| | | |k str|k|k]; cbn [tstep] in H.
  - destruct (ch !! c) as [[ms []]|]; try done. by injection H as <-.
  - destruct (ch !! c) as [[ms []]|]; try done. by injection H as <-.
  - cbn [task_step] in H. destruct (cs !! k) as [p|] eqn:K; [|done].
    assert (AP : at_zero p) by (rewrite Forall_lookup in C; by apply (C k)).
    destruct p as [|c|m|m|m|m|m|m| |]; try done.
    + injection H as <-. split; [done|]. split; [|done]. apply U. by destruct rx.
    + destruct (ch !! c) as [[[|? ms] [|]]|]; try done; injection H as <-; (split; [done|]); (split; [|done]); by apply U.
    + injection H as <-. split; [done|]. split; [|done]. apply U. destruct (fm_slot m <? slot_size)%N; cbn [negb]; [|done].
      destruct (lk (fm_slot m)) eqn:E; [done|].
      cbn. destruct (N.eq_dec (fm_slot m) 0) as [Z|Z]; [done|]. destruct (L _ Z). congruence.
    + destruct pm; injection H as <-; (split; [done|]); (split; [|done]); by apply U.
    + cbn in AP. destruct (process_forward (fm_slot m) now (fm_id m) (fm_cmd m) (b (fm_slot m))) as [[d r] e].
      injection H as <-. split; [|split; [|done]].
      * intros j J. cbn [tk_locks tk_db]. unfold db_set. destruct (N.eqb_spec j (fm_slot m)); [congruence|]. by apply L.
      * apply U. by destruct r as [[]|].
    + cbn in AP. cbn [tk_sync] in H. destruct sy; injection H as <-; cbn [tk_cmds tk_xfers].
      * split; [done|]. split; [|done]. by apply U.
      * split; [intros j J; split; [done|by apply L]|]. split; [by apply U|].
        cbn [tk_xfers]. apply List.Forall_app. split; [done|]. constructor; [by left|constructor].
  - destruct (cs !! k) as [[| | | | | | |m| |]|] eqn:K; try done. injection H as <-. split; [done|]. split; [|done]. by apply U.
  - cbn [tk_sync] in H. destruct sy; injection H as <-; [done|]. split; [intros j J; split; [done|by apply L]|]. split; [done|].
    cbn [tk_xfers]. apply List.Forall_app. split; [done|]. constructor; [by right|constructor].
  - injection H as <-. split; [done|]. split; [|done]. cbn [tk_cmds]. apply List.Forall_app. split; [done|by repeat constructor].
  - by injection H as <-.
  - destruct (nth_error xs k) as [[sl| | |]|] eqn:K; try done. injection H as <-. split; [done|]. split; [done|].
    cbn [tk_xfers]. apply with_xfer_forall; [|done]. cbn. apply (answer_zero P sl); [|by apply A].
    apply (nth_forall _ _ _ _ X K).
  - cbn [tk_xfer] in H. destruct (nth_error xs k) as [p|] eqn:K; [|done]. pose proof (nth_forall _ _ _ _ X K) as XP.
    destruct p as [sl|str|j r|]; try done; cbn in XP.
    + destruct (read_item str) as [j d r| |] eqn:R.
      * destruct (XP j d r R) as (-> & D & B). injection H as <-. split; [|split; [done|by apply with_xfer_forall]].
        intros j J. cbn [tk_locks tk_db]. unfold db_set. destruct (N.eqb_spec j 0); [done|]. by apply L.
      * injection H as <-. split; [done|]. split; [done|]. by apply with_xfer_forall.
      * injection H as <-. split; [done|]. split; [done|]. by apply with_xfer_forall.
    + destruct XP as [-> B]. injection H as <-. split; [|split; [done|apply with_xfer_forall; [|done]]].
      * intros j J. cbn [tk_locks tk_db]. destruct (N.eqb_spec j 0); [done|]. by apply L.
      * cbn. intros j d r' E. by apply B in E.
    + injection H as <-. cbn [notify_one]. destruct ws as [|w ws]; (split; [done|]); cbn [tk_cmds tk_xfers]; (split; [|by apply with_xfer_forall]); [done|].
      destruct (cs !! w) as [[]|]; try done. by apply U.
  - destruct (nth_error xs k) as [[]|] eqn:K; try done; injection H as <-; (split; [done|]); (split; [done|]); by apply with_xfer_forall.
Qed.

(** Before the first snapshot is asked for nothing is going on. *)
Definition fresh (x : tasks) : Prop := tk_db x = db_empty /\ tk_syncing x = false /\ tk_cmds x = [] /\ tk_xfers x = [] /\ tk_chans x = [].

Lemma fresh_step ev x x' :
  fresh x -> tstep ev x = Some x' ->
  match ev with
  | USyncAll => forall Q, cut_off Q x' /\ tk_locks x' 0 = true /\ tk_db x' = db_empty /\ tk_cmds x' = [] /\ tk_chans x' = [] /\ tk_xfers x' = [XConnect slot_size]
  | USyncCmd => True
  | _ => fresh x'
  end.
Proof.
  intros (D & S & C & X & Ch) H. destruct x as [b sy lk pm ws ch rx cs xs]. cbn in D, S, C, X, Ch. subst b sy cs xs ch.
  destruct ev as [c m|c|k now|k| | | |k str|k|k]; cbn [tstep task_step tk_sync tk_xfer] in H; rewrite ?lookup_nil in H; try done;
    try (by destruct k).
  - injection H as <-. intros Q. split; [|done]. split; [done|]. split; [constructor|]. constructor; [by right|constructor].
  - injection H as <-. done.
Qed.

Lemma cut_off_steps P evs x x' :
  let Q w := exists b, P b /\ write_id (b 0) = w in
  cut_off Q x -> answered_by P evs x -> tsteps evs x = Some x' -> cut_off Q x'.
Proof.
  intros Q. revert x; induction evs as [|ev evs IH]; intros x I A H; cbn [tsteps answered_by] in *; [by injection H as <-|].
  destruct (tstep ev x) as [y|] eqn:S; [|done]. destruct A as [A1 A2]. apply (IH y); try done. by apply (cut_off_step P ev x).
Qed.

(** ** The theorem: a follower that is only told what leaders send never holds a key of any slot but slot 0, whatever
    its leaders hold and write, however often they change, and however the tasks, the transfers and the network
    interleave.  (Slot 0 comes first in a snapshot; the others are misread, C53, and so stay locked, C54.) *)
Theorem C108_other_slots (evs : list tevent) (x : tasks) :
  tsteps evs tk_start = Some x -> snapshot_first evs -> answered_by (fun _ => True) evs tk_start ->
  forall k, get_slot k <> 0 -> contents (tk_db x (get_slot k)) k = None.
Proof.
  intros H F A.
  assert (G : forall y, fresh y -> tsteps evs y = Some x -> answered_by (fun _ => True) evs y ->
    fresh x \/ cut_off (fun w => exists b : db, True /\ write_id (b 0) = w) x).
  { clear H A. induction evs as [|ev evs IH]; intros y I H A; cbn [tsteps answered_by snapshot_first] in *; [injection H as <-; by left|].
    destruct (tstep ev y) as [z|] eqn:S; [|done]. destruct A as [_ A]. pose proof (fresh_step ev y z I S) as Z.
    destruct ev; try (by apply (IH F z)); [|done]. right. destruct (Z (fun w => exists b : db, True /\ write_id (b 0) = w)) as [I' _].
    by apply (cut_off_steps (fun _ => True) evs z). }
  intros k K. destruct (G tk_start) as [I|I]; [done|exact H|exact A| |].
  - destruct I as (-> & _). done.
  - destruct I as (L & _). destruct (L _ K) as [_ ->]. done.
Qed.
Print Assumptions C108_other_slots.

(** ** Slot 0: nothing arrives there either if the leaders have written to it before they were asked *)
Definition shifted_zero (d : dict) : Prop := exists w, 0 < w < 2 ^ 16 /\ d = Dict (w * 2 ^ 48) ∅.
Definition small (m : fwd_msg) : Prop := fm_id m < 2 ^ 48.
Definition zero_closed (x : tasks) : Prop :=
  (shifted_zero (tk_db x 0) \/
   tk_db x 0 = dict_empty /\ tk_locks x 0 = true /\
   Forall (fun c => match c with TTry _ | TSync _ => False | _ => True end) (tk_cmds x) /\
   Forall (fun p => match p with XUnlock _ _ => False | _ => True end) (tk_xfers x)) /\
  Forall (fun c => Forall small (holds c)) (tk_cmds x) /\ Forall (fun c => Forall small (ch_msgs c)) (tk_chans x).

Lemma shifted_ignores s now m d : shifted_zero d -> small m -> exists o, process_forward s now (fm_id m) (fm_cmd m) d = (d, Some o, []) /\ o <> Gt.
Proof.
  intros (w & W & ->) M. unfold process_forward. destruct (fm_cmd m); [|by exists Eq].
  cbn [write_id]. unfold wrap_u64, two64. rewrite N.mod_small by lia.
  unfold small in M. destruct (N.compare_spec (fm_id m) (w * 2 ^ 48 + 1)); [lia|by exists Lt|lia].
Qed.

Lemma zero_closed_step ev x x' :
  let P b := 0 < write_id (b 0) in
  cut_off (fun w => exists b, P b /\ write_id (b 0) = w) x -> zero_closed x ->
  match ev with UMsg _ m => small m | _ => True end ->
  tstep ev x = Some x' -> zero_closed x'.
Proof.
  intros P (L & C & X) (Z & Hd & Hc) M H. destruct x as [b sy lk pm ws ch rx cs xs].
  cbn [tk_locks tk_db tk_cmds tk_xfers tk_chans] in *.
  assert (U : forall k c, Forall small (holds c) -> Forall (fun c => Forall small (holds c)) (<[k := c]> cs))
    by (intros k c K; by apply Forall_insert).
  assert (V : forall k c, Forall small (ch_msgs c) -> Forall (fun c => Forall small (ch_msgs c)) (<[k := c]> ch))
    by (intros k c K; by apply Forall_insert).
  set (nt := fun c => match c with TTry _ | TSync _ => False | _ => True end) in *.
  set (nx := fun p => match p with XUnlock _ _ => False | _ => True end) in *.
  assert (T : forall k c, nt c -> Forall nt cs -> Forall nt (<[k := c]> cs)) by (intros k c K F; by apply Forall_insert).
  assert (WX : forall k p, match p with Some q => nx q | None => True end -> Forall nx xs -> Forall nx (with_xfer k p xs))
    by (intros k p K F; by apply with_xfer_forall).
  destruct ev as [c m|c|k now|k| | | |k str|k|k]; cbn [tstep] in H.
  - destruct (ch !! c) as [[ms []]|] eqn:E; try done. injection H as <-. split; [done|]. split; [done|]. cbn [tk_chans]. apply V.
    cbn. apply List.Forall_app. split; [|by repeat constructor]. rewrite Forall_lookup in Hc. apply (Hc _ _ E).
  - destruct (ch !! c) as [[ms []]|] eqn:E; try done. injection H as <-. split; [done|]. split; [done|]. cbn [tk_chans]. apply V.
    rewrite Forall_lookup in Hc. apply (Hc _ _ E).
  - cbn [task_step] in H. destruct (cs !! k) as [p|] eqn:K; [|done].
    assert (HP : Forall small (holds p)) by (rewrite Forall_lookup in Hd; by apply (Hd k)).
    assert (AP : at_zero p) by (rewrite Forall_lookup in C; by apply (C k)).
    assert (KP : forall c, nt c -> (shifted_zero (b 0) \/ b 0 = dict_empty /\ lk 0 = true /\ Forall nt (<[k := c]> cs) /\ Forall nx xs)).
    { intros c N. destruct Z as [Z|(Z1 & Z2 & Z3 & Z4)]; [by left|right]. repeat (split; [done|]). split; [by apply T|done]. }
    destruct p as [|c|m|m|m|m|m|m| |]; try done.
    + injection H as <-. split; [apply KP; by destruct rx|]. split; [apply U; by destruct rx|done].
    + destruct (ch !! c) as [[[|m ms] [|]]|] eqn:E; try done; injection H as <-; (split; [by apply KP|]); cbn [tk_cmds tk_chans].
      * split; [by apply U|done].
      * pose proof (proj1 (Forall_lookup _ _) Hc _ _ E) as F. cbn in F. inversion F; subst. split; [apply U; by repeat constructor|by apply V].
      * pose proof (proj1 (Forall_lookup _ _) Hc _ _ E) as F. cbn in F. inversion F; subst. split; [apply U; by repeat constructor|by apply V].
      * split; [by apply U|done].
    + injection H as <-. split; [|split; [apply U; destruct (fm_slot m <? slot_size)%N, (lk (fm_slot m)); cbn; first [done|by constructor]|done]]. cbn [tk_db tk_locks tk_cmds tk_xfers].
      destruct (fm_slot m <? slot_size)%N; cbn [negb]; [|by apply KP].
      destruct (lk (fm_slot m)) eqn:E; [by apply KP|]. destruct Z as [Z|(Z1 & Z2 & Z3 & Z4)]; [by left|].
      destruct (N.eq_dec (fm_slot m) 0) as [J|J]; [congruence|]. destruct (L _ J). congruence.
    + destruct pm; injection H as <-; (split; [by apply KP|]); (split; [by apply U|done]).
    + cbn in AP. rewrite AP in H. destruct Z as [Z|(_ & _ & Z & _)]; [|rewrite Forall_lookup in Z; by destruct (Z _ _ K)].
      inversion HP as [|? ? SM _]; subst. destruct (shifted_ignores 0 now m (b 0) Z SM) as (o & E & NG). rewrite E in H. injection H as <-.
      split; [left; cbn [tk_db]; unfold db_set; done|]. split; [apply U; destruct o; by repeat constructor|done].
    + cbn in AP. destruct Z as [Z|(_ & _ & Z & _)]; [|rewrite Forall_lookup in Z; by destruct (Z _ _ K)].
      cbn [tk_sync] in H. destruct sy; injection H as <-; (split; [by left|]); (split; [by apply U|done]).
  - destruct (cs !! k) as [[| | | | | | |m| |]|] eqn:K; try done. injection H as <-.
    pose proof (proj1 (Forall_lookup _ _) Hd _ _ K) as F.
    split; [|split; [by apply U|done]]. destruct Z as [Z|(Z1 & Z2 & Z3 & Z4)]; [by left|right]. repeat (split; [done|]). split; [by apply T|done].
  - cbn [tk_sync] in H. destruct sy; injection H as <-; [done|]. split; [|done]. cbn [tk_db tk_locks tk_cmds tk_xfers].
    destruct Z as [Z|(Z1 & Z2 & Z3 & Z4)]; [by left|right]. repeat (split; [done|]). apply List.Forall_app. split; [done|by repeat constructor].
  - injection H as <-. cbn [tk_db tk_locks tk_cmds tk_xfers tk_chans]. split; [|split; apply List.Forall_app; (split; [done|by repeat constructor])].
    destruct Z as [Z|(Z1 & Z2 & Z3 & Z4)]; [by left|right]. repeat (split; [done|]). split; [|done]. apply List.Forall_app. split; [done|by repeat constructor].
  - by injection H as <-.
  - destruct (nth_error xs k) as [[sl| | |]|] eqn:K; try done. injection H as <-. split; [|done]. cbn [tk_db tk_locks tk_cmds tk_xfers].
    destruct Z as [Z|(Z1 & Z2 & Z3 & Z4)]; [by left|right]. repeat (split; [done|]). by apply WX.
  - cbn [tk_xfer] in H. destruct (nth_error xs k) as [p|] eqn:K; [|done]. pose proof (nth_forall _ _ _ _ X K) as XP.
    destruct p as [sl|str|j r|]; try done; cbn in XP.
    + destruct (read_item str) as [j d r| |] eqn:R.
      * destruct (XP j d r R) as (-> & (w & (b' & PB & <-) & W2 & ->) & B). injection H as <-. split; [left|done]. cbn [tk_db].
        unfold db_set. cbn. eexists. split; [|reflexivity]. unfold P in PB. lia.
      * injection H as <-. split; [|done]. cbn [tk_db tk_locks tk_cmds tk_xfers].
        destruct Z as [Z|(Z1 & Z2 & Z3 & Z4)]; [by left|right]. repeat (split; [done|]). by apply WX.
      * injection H as <-. split; [|done]. cbn [tk_db tk_locks tk_cmds tk_xfers].
        destruct Z as [Z|(Z1 & Z2 & Z3 & Z4)]; [by left|right]. repeat (split; [done|]). by apply WX.
    + destruct Z as [Z|(_ & _ & _ & Z4)]; [|by destruct (nth_forall _ _ _ _ Z4 K)]. injection H as <-. split; [by left|done].
    + injection H as <-. cbn [notify_one]. destruct ws as [|i ws]; cbn [tk_db tk_locks tk_cmds tk_xfers tk_chans].
      * split; [|done]. destruct Z as [Z|(Z1 & Z2 & Z3 & Z4)]; [by left|right]. repeat (split; [done|]). by apply WX.
      * assert (G : Forall (fun c => Forall small (holds c)) (match cs !! i with Some (TPark m) => <[i := TWait m]> cs | _ => cs end) /\
                    (Forall nt cs -> Forall nt (match cs !! i with Some (TPark m) => <[i := TWait m]> cs | _ => cs end))).
        { destruct (cs !! i) as [c|] eqn:Ei; [|done]. pose proof (proj1 (Forall_lookup _ _) Hd _ _ Ei) as F.
          destruct c; try done. split; [by apply U|intros; by apply T]. }
        destruct G as [G1 G2]. split; [|done]. cbn [tk_db tk_locks tk_cmds tk_xfers].
        destruct Z as [Z|(Z1 & Z2 & Z3 & Z4)]; [by left|right]. repeat (split; [done|]). split; [by apply G2|by apply WX].
  - destruct (nth_error xs k) as [[]|] eqn:K; try done; injection H as <-; (split; [|done]); cbn [tk_db tk_locks tk_cmds tk_xfers];
      (destruct Z as [Z|(Z1 & Z2 & Z3 & Z4)]; [by left|right]); repeat (split; [done|]); by apply WX.
Qed.

(** If moreover every leader had written to slot 0 before it was asked for a snapshot (and no sequence number reaches
    2^48), then no key at all ever reaches the follower. *)
Theorem C108_nothing_arrives (evs : list tevent) (x : tasks) :
  tsteps evs tk_start = Some x -> snapshot_first evs -> answered_by (fun b => 0 < write_id (b 0)) evs tk_start ->
  (forall c m, In (UMsg c m) evs -> fm_id m < 2 ^ 48) ->
  forall i k, contents (tk_db x i) k = None.
Proof.
  intros H F A M. set (P := fun b : db => 0 < write_id (b 0)) in *.
  assert (M' : Forall (fun ev => match ev with UMsg _ m => small m | _ => True end) evs).
  { apply List.Forall_forall. intros ev I. destruct ev; try done. by apply (M _ _ I). }
  assert (K : forall evs y, cut_off (fun w => exists b, P b /\ write_id (b 0) = w) y -> zero_closed y -> answered_by P evs y ->
    Forall (fun ev => match ev with UMsg _ m => small m | _ => True end) evs -> tsteps evs y = Some x ->
    cut_off (fun w => exists b, P b /\ write_id (b 0) = w) x /\ zero_closed x).
  { clear. induction evs as [|ev evs IH]; intros y I Z A M H; cbn [tsteps answered_by] in *; [by injection H as <-|].
    destruct (tstep ev y) as [z|] eqn:S; [|done]. destruct A as [A1 A2]. inversion M; subst. apply (IH z); try done.
    - by apply (cut_off_step P ev y).
    - by apply (zero_closed_step ev y). }
  assert (G : forall y, fresh y -> tsteps evs y = Some x -> answered_by P evs y ->
    fresh x \/ cut_off (fun w => exists b, P b /\ write_id (b 0) = w) x /\ zero_closed x).
  { clear H A M. induction evs as [|ev evs IH]; intros y I H A; cbn [tsteps answered_by snapshot_first] in *; [injection H as <-; by left|].
    destruct (tstep ev y) as [z|] eqn:S; [|done]. destruct A as [_ A]. pose proof (fresh_step ev y z I S) as Z. apply List.Forall_cons_iff in M'. destruct M' as [_ M'].
    destruct ev; try (by apply (IH F M' z)); [|done]. right.
    destruct (Z (fun w => exists b, P b /\ write_id (b 0) = w)) as (I' & Z1 & Z2 & Z3 & Z4 & Z5). apply (K evs z); try done.
    split; [right|]; rewrite ?Z2, ?Z3, ?Z4, ?Z5; [|done]. split; [done|]. split; [done|]. split; by repeat constructor. }
  intros i k. destruct (G tk_start) as [I|[I Z]]; [done|exact H|exact A| |].
  - destruct I as (-> & _). done.
  - destruct (N.eq_dec i 0) as [-> |N].
    + destruct Z as ([(w & _ & ->)|(-> & _)] & _); done.
    + destruct I as (L & _). destruct (L _ N) as [_ ->]. done.
Qed.
Print Assumptions C108_nothing_arrives.

(** ** Cases *)

(** A leader that holds 'a' under the key 'k' and has done [w] writes in slot 0, which hold nothing; what a follower gets
    of its answer before the connection breaks. *)
Definition c108_leader (w : N) : db :=
  fun i => if i =? 0 then Dict w ∅
           else if i =? get_slot [x6b] then Dict 1 {[ [x6b] := Value (DScalar (SBytes [x61])) 0 0 ]} else dict_empty.
Definition c108_answer (w : N) : bytes := put_option put_u64 (Some 0) ++ put_dict horder_default (Dict w ∅) ++ [x01].
(** The transfer; then the follower is told of writes to both slots. *)
Definition c108_rest (w : N) : list tevent :=
  [UXfer 0; UXfer 0; UXfer 0; USyncCmd;
   UMsg 0 (tm (w + 1)); UStep 0 10; UStep 0 10; UStep 0 10; UStep 0 10;
   UMsg 0 (FwdMsg 2 (get_slot [x6b]) (Some (WSet [x6b] (SBytes [x62]) (Specific 0) NxXx_None)));
   UStep 0 10; UStep 0 10; UStep 0 10; UStep 0 10].
Definition c108_run (w : N) : list tevent := USyncAll :: UOpen 0 (c108_answer w) :: c108_rest w.

Lemma c108_answers (P : db -> Prop) w : In w [0; 2] -> P (c108_leader w) -> answers P slot_size (c108_answer w).
Proof.
  intros W HP. exists horder_default, (c108_leader w), (map (fun i => (i, c108_leader w i)) all_slots),
    (drop (length (c108_answer w)) (put_snapshot horder_default (map (fun i => (i, c108_leader w i)) all_slots))).
  assert (E : c108_answer w = take (length (c108_answer w)) (put_snapshot horder_default (map (fun i => (i, c108_leader w i)) all_slots))).
  { destruct W as [<-|[<-|[]]]; vm_compute; reflexivity. }
  split; [apply horder_default_ok|]. split; [destruct W as [<-|[<-|[]]]; (split; vm_compute; reflexivity)|]. split; [done|].
  split; [unfold snapshot_slots; by rewrite N.eqb_refl|]. split.
  - rewrite E at 1. symmetry. apply take_drop.
  - rewrite E at 1. rewrite take_drop. destruct W as [<-|[<-|[]]]; vm_compute; reflexivity.
Qed.

(** From a leader that has never written to slot 0, the write to slot 0 arrives and the other does not: so the theorem
    leaves out no slot without need.  From one that has, neither does. *)
Example C108_case :
  (forall w, In w [0; 2] -> is_Some (ex_tk (c108_run w)) /\ snapshot_first (c108_run w)) /\
  (forall w, In w [0; 2] -> answered_by (fun _ => True) (c108_run w) tk_start) /\
  answered_by (fun b => 0 < write_id (b 0)) (c108_run 2) tk_start /\
  option_map (fun x => contents (tk_db x 0) []) (ex_tk (c108_run 0)) = Some (Some (DScalar (SBytes [x61]), 0)) /\
  option_map (fun x => contents (tk_db x (get_slot [x6b])) [x6b]) (ex_tk (c108_run 0)) = Some None /\
  contents (c108_leader 0 (get_slot [x6b])) [x6b] = Some (DScalar (SBytes [x61]), 0) /\
  option_map (fun x => contents (tk_db x 0) []) (ex_tk (c108_run 2)) = Some None.
Proof.
  assert (A : forall (P : db -> Prop) w, In w [0; 2] -> P (c108_leader w) -> answered_by P (c108_run w) tk_start).
  { intros P w W HP. pose proof (c108_answers P w W HP) as HA. remember (c108_answer w) as s eqn:E.
    assert (R : exists y, tstep USyncAll tk_start = Some y /\ tk_xfers y = [XConnect slot_size]) by (eexists; split; reflexivity).
    destruct R as (y & Y & X). unfold c108_run. rewrite <- E.
    assert (K : forall evs z, Forall (fun ev => match ev with UOpen _ _ => False | _ => True end) evs -> answered_by P evs z).
    { clear. induction evs as [|ev evs IH]; intros z F; [done|]. inversion F; subst. cbn [answered_by]. split; [by destruct ev|].
      destruct (tstep ev z); [by apply IH|done]. }
    cbn [answered_by]. split; [done|]. rewrite Y. split.
    - intros slot. rewrite X. cbn. by intros [= <-].
    - destruct (tstep _ y) as [z|]; [|done]. apply K. repeat constructor. }
  split; [intros w [<-|[<-|[]]]; (split; [vm_compute; by eexists|done])|].
  split; [intros w W; by apply A|]. split; [apply A; [by right; left|vm_compute; reflexivity]|].
  split; [vm_compute; reflexivity|]. split; [vm_compute; reflexivity|]. split; vm_compute; reflexivity.
Qed.
