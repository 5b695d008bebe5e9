(** Lemmas about Tasks.v. *)
From Verif Require Export SpecTasks BytesFacts.

(** ** Executions *)
Lemma tsteps_app evs evs' x : tsteps (evs ++ evs') x = match tsteps evs x with Some y => tsteps evs' y | None => None end.
Proof. revert x; induction evs as [|ev evs IH]; intros x; cbn [tsteps app]; [done|]. by destruct (tstep ev x). Qed.

Lemma handled_app evs evs' x y : tsteps evs x = Some y -> handled (evs ++ evs') x = handled evs x ++ handled evs' y.
Proof.
  revert x; induction evs as [|ev evs IH]; intros x; cbn [tsteps app handled]; [by intros [= ->]|].
  destruct (tstep ev x) as [x'|]; [|done]. intros H. by rewrite (IH x' H), app_assoc.
Qed.

(** ** Where the messages are *)
Definition in_tasks (x : tasks) : list fwd_msg := concat (map holds (tk_cmds x)).
Definition in_chans (x : tasks) : list fwd_msg := concat (map ch_msgs (tk_chans x)).

Lemma concat_insert {A B} (f : A -> list B) (l : list A) i b :
  l !! i = Some b -> exists l1 l2, concat (map f l) = l1 ++ f b ++ l2 /\ forall a, concat (map f (<[i := a]> l)) = l1 ++ f a ++ l2.
Proof.
  revert i; induction l as [|c l IH]; intros [|i] H; cbn in H; try done.
  - injection H as ->. exists [], (concat (map f l)). by split.
  - destruct (IH i H) as (l1 & l2 & E1 & E2). exists (f c ++ l1), l2. cbn [map concat].
    split; [by rewrite E1, <- !app_assoc|]. intros a. change (<[Datatypes.S i := a]> (c :: l)) with (c :: <[i := a]> l).
    cbn [map concat]. by rewrite E2, <- !app_assoc.
Qed.

Lemma concat_insert_same {A B} (f : A -> list B) (l : list A) i a b :
  l !! i = Some b -> f a = f b -> concat (map f (<[i := a]> l)) = concat (map f l).
Proof. intros H E. destruct (concat_insert f l i b H) as (l1 & l2 & E1 & E2). by rewrite E1, E2, E. Qed.

Lemma concat_snoc {A B} (f : A -> list B) (l : list A) a : concat (map f (l ++ [a])) = concat (map f l) ++ f a.
Proof. rewrite map_app, concat_app. cbn [map concat]. by rewrite app_nil_r. Qed.

Lemma perm_out {A} (a l1 l2 : list A) : Permutation (l1 ++ a ++ l2) (a ++ l1 ++ l2).
Proof. rewrite !app_assoc. apply Permutation_app_tail, Permutation_app_comm. Qed.

Lemma tstep_messages ev x x' : tstep ev x = Some x' ->
  Permutation (sent [ev] ++ in_tasks x ++ in_chans x) (finishes ev x ++ in_tasks x' ++ in_chans x').
Proof.
  intros H. destruct x as [b sy lk pm ws ch rx cs xs]. unfold in_tasks, in_chans.
  destruct ev as [c m|c|i now|i| | | |k s|k|k]; cbn [tstep sent finishes app tk_cmds tk_chans tk_db] in *.
  - destruct (ch !! c) as [[ms []]|] eqn:C; try done. injection H as <-. cbn [tk_cmds tk_chans].
    destruct (concat_insert ch_msgs ch c _ C) as (l1 & l2 & E1 & E2). rewrite E1, E2. cbn [ch_msgs].
    rewrite <- (app_assoc ms). generalize (concat (map holds cs)). intros A. cbn [app].
    replace (A ++ l1 ++ ms ++ m :: l2) with ((A ++ l1 ++ ms) ++ m :: l2) by (by rewrite <- !app_assoc).
    rewrite <- Permutation_middle. by rewrite <- !app_assoc.
  - destruct (ch !! c) as [[ms []]|] eqn:C; try done. injection H as <-. cbn [tk_cmds tk_chans].
    by rewrite (concat_insert_same ch_msgs ch c (Chan ms false) _ C).
  - cbn [task_step] in H. destruct (cs !! i) as [p|] eqn:P; [|done].
    destruct p as [|c|m|m|m|m|m|m| |]; try done.
    + injection H as <-. cbn [tk_cmds tk_chans]. by rewrite (concat_insert_same holds cs i _ _ P) by (by destruct rx).
    + assert (Z : Some (Tasks b sy lk pm ws ch rx (<[i := TLoad]> cs) xs) = Some x' ->
        Permutation (concat (map holds cs) ++ concat (map ch_msgs ch)) (concat (map holds (tk_cmds x')) ++ concat (map ch_msgs (tk_chans x')))).
      { intros [= <-]. cbn [tk_cmds tk_chans]. by rewrite (concat_insert_same holds cs i _ _ P). }
      destruct (ch !! c) as [[[|m ms] o]|] eqn:C; [destruct o; [done|by apply Z]| |by apply Z].
      injection H as <-. cbn [tk_cmds tk_chans].
      destruct (concat_insert holds cs i _ P) as (k1 & k2 & F1 & F2).
      destruct (concat_insert ch_msgs ch c _ C) as (l1 & l2 & E1 & E2). rewrite E1, E2, F1, F2. cbn [ch_msgs holds].
      change (m :: ms) with ([m] ++ ms). rewrite <- !app_assoc. cbn [app].
      rewrite <- !Permutation_middle. apply Permutation_cons; [done|]. done.
    + injection H as <-. cbn [tk_cmds tk_chans]. destruct (fm_slot m <? slot_size)%N; cbn [negb].
      * by rewrite (concat_insert_same holds cs i _ _ P) by (by destruct (lk (fm_slot m))).
      * destruct (concat_insert holds cs i _ P) as (k1 & k2 & F1 & F2). rewrite F1, F2.
        cbn [holds app]; rewrite <- ?app_assoc; cbn [app]; rewrite <- ?Permutation_middle; done.
    + destruct pm; injection H as <-; cbn [tk_cmds tk_chans]; by rewrite (concat_insert_same holds cs i _ _ P).
    + destruct (process_forward (fm_slot m) now (fm_id m) (fm_cmd m) (b (fm_slot m))) as [[d o] e] eqn:F. cbn [fst snd].
      injection H as <-. cbn [tk_cmds tk_chans]. destruct (concat_insert holds cs i _ P) as (k1 & k2 & F1 & F2). rewrite F1, F2.
      destruct o as [[]|]; cbn [holds app]; rewrite <- ?app_assoc; cbn [app]; rewrite <- ?Permutation_middle; done.
    + cbn [tk_sync] in H. destruct sy; injection H as <-; cbn [tk_cmds tk_chans]; by rewrite (concat_insert_same holds cs i _ _ P).
  - destruct (cs !! i) as [[| | | | | | |m| |]|] eqn:P; try done. injection H as <-. cbn [tk_cmds tk_chans].
    by rewrite (concat_insert_same holds cs i (TWait m) _ P).
  - destruct sy; injection H as <-; done.
  - injection H as <-. cbn [tk_cmds tk_chans]. rewrite !concat_snoc. cbn [holds ch_msgs]. by rewrite !app_nil_r.
  - by injection H as <-.
  - destruct (nth_error xs k) as [[]|]; try done. by injection H as <-.
  - cbn [tk_xfer] in H. destruct (nth_error xs k) as [[sl|s|j r|]|]; try done.
    + destruct (read_item s); by injection H as <-.
    + by injection H as <-.
    + injection H as <-. cbn [notify_one]. destruct ws as [|i ws]; [done|]. cbn [tk_cmds tk_chans].
      destruct (cs !! i) as [[]|] eqn:P; try done. by rewrite (concat_insert_same holds cs i (TWait m) _ P).
  - destruct (nth_error xs k) as [[]|]; try done; by injection H as <-.
Qed.

Lemma tsteps_messages evs x x' : tsteps evs x = Some x' ->
  Permutation (sent evs ++ in_tasks x ++ in_chans x) (handled evs x ++ in_tasks x' ++ in_chans x').
Proof.
  revert x; induction evs as [|ev evs IH]; intros x H; cbn [tsteps handled] in *; [by injection H as <-|].
  destruct (tstep ev x) as [y|] eqn:S; [|done].
  replace (sent (ev :: evs)) with (sent [ev] ++ sent evs) by (by destruct ev).
  pose proof (tstep_messages ev x y S) as P1. specialize (IH y H).
  generalize dependent (in_tasks x ++ in_chans x). generalize dependent (in_tasks y ++ in_chans y). intros T1 IH T P1.
  transitivity (sent evs ++ sent [ev] ++ T).
  { rewrite !app_assoc. apply Permutation_app_tail, Permutation_app_comm. }
  rewrite P1. transitivity (finishes ev x ++ sent evs ++ T1).
  { rewrite !app_assoc. apply Permutation_app_tail, Permutation_app_comm. }
  rewrite IH. by rewrite <- app_assoc.
Qed.

(** ** One task *)

(** With at most one change of leader there is at most one task and one channel, and the messages are in
    one line. *)
Definition in_line (n : nat) (s h : list fwd_msg) (x : tasks) : Prop :=
  match n with
  | O => tk_cmds x = [] /\ tk_chans x = [] /\ tk_rx x = None /\ tk_waiters x = [] /\ s = [] /\ h = []
  | _ => exists c q o, tk_cmds x = [c] /\ tk_chans x = [Chan q o] /\ (tk_rx x = None \/ tk_rx x = Some O) /\
           (forall k, c = TRecv k -> k = O) /\
           tk_waiters x = (match c with TPark _ => [O] | _ => [] end) /\
           s = h ++ holds c ++ q
  end.

Ltac in_line_done := first [done|left; done|right; done|congruence].

Lemma tstep_in_line ev x x' s h n :
  in_line n s h x -> (n + (if is_sync_cmd ev then 1 else 0) <= 1)%nat -> tstep ev x = Some x' ->
  in_line (n + (if is_sync_cmd ev then 1 else 0)) (s ++ sent [ev]) (h ++ finishes ev x) x'.
Proof.
  intros I B H. destruct x as [b sy lk pm ws ch rx cs xs]. destruct n as [|n].
  - destruct I as (I1 & I2 & I3 & I4 & -> & ->). cbn [tk_cmds tk_chans tk_rx tk_waiters] in *. subst.
    destruct ev as [c m|c|i now|i| | | |k str|k|k]; cbn in H.
    + by rewrite lookup_nil in H.
    + by rewrite lookup_nil in H.
    + by rewrite lookup_nil in H.
    + by rewrite lookup_nil in H.
    + destruct sy; injection H as <-; done.
    + injection H as <-. exists TLoad, [], true. cbn. repeat split; try done; by right.
    + by injection H as <-.
    + destruct (nth_error xs k) as [[]|]; try done. by injection H as <-.
    + destruct (nth_error xs k) as [[sl|str|j r|]|]; try done.
      * destruct (read_item str); by injection H as <-.
      * by injection H as <-.
      * by injection H as <-.
    + destruct (nth_error xs k) as [[]|]; try done; by injection H as <-.
  - assert (is_sync_cmd ev = false /\ n = O) as [Y ->] by (destruct (is_sync_cmd ev); lia || (split; [done|lia])).
    rewrite Y. clear B. destruct I as (c & q & o & I1 & I2 & I3 & I4 & I5 & I6).
    cbn [tk_cmds tk_chans tk_rx tk_waiters in_line Nat.add] in *. subst cs ch ws.
    destruct ev as [c' m|c'|i now|i| | | |k str|k|k]; cbn [tstep sent finishes tk_cmds tk_db] in *; rewrite ?app_nil_r; try done.
    + destruct c' as [|c']; cbn in H; [|done]. destruct o; [|done]. injection H as <-.
      exists c, (q ++ [m]), true. cbn. repeat split; try done. by rewrite I6, <- !app_assoc.
    + destruct c' as [|c']; cbn in H; [|done]. destruct o; [|done]. injection H as <-.
      exists c, q, false. cbn. by repeat split.
    + cbn [task_step] in H. destruct i as [|i]; cbn in H; [|done]. cbn [lookup list_lookup].
      destruct c as [|k|m|m|m|m|m|m| |]; rewrite ?app_nil_r; try done.
      * injection H as <-. eexists _, q, o. cbn. split; [reflexivity|]. split; [reflexivity|]. split; [done|].
        destruct I3 as [->| ->]; repeat split; try done; congruence.
      * rewrite (I4 k eq_refl) in H. cbn in H. destruct q as [|m q]; [destruct o; [done|]|].
        -- injection H as <-. exists TLoad, [], false. cbn. by repeat split.
        -- injection H as <-. exists (TWait m), q, o. cbn. by repeat split.
      * injection H as <-. eexists _, q, o. cbn. split; [reflexivity|]. split; [reflexivity|]. split; [done|].
        destruct (fm_slot m <? slot_size)%N; cbn [negb]; [rewrite app_nil_r; destruct (lk (fm_slot m)); by repeat split|].
        repeat split; try done. by rewrite I6, <- app_assoc.
      * destruct pm; injection H as <-; (eexists _, q, o; cbn; split; [reflexivity|]; split; [reflexivity|]; by repeat split).
      * destruct (process_forward (fm_slot m) now (fm_id m) (fm_cmd m) (b (fm_slot m))) as [[d r] e]. cbn [fst snd].
        injection H as <-. eexists _, q, o. cbn. split; [reflexivity|]. split; [reflexivity|]. split; [done|].
        destruct r as [[]|]; rewrite ?app_nil_r; repeat split; try done; by rewrite I6, <- app_assoc.
      * destruct sy; injection H as <-; (eexists _, q, o; cbn; split; [reflexivity|]; split; [reflexivity|]; by repeat split).
    + destruct i as [|i]; cbn in H; [|done]. destruct c; try done. injection H as <-.
      eexists _, q, o. cbn. split; [reflexivity|]. split; [reflexivity|]. by repeat split.
    + destruct sy; injection H as <-; exists c, q, o; cbn; by repeat split.
    + injection H as <-. exists c, q, o. cbn. repeat split; try done. by left.
    + destruct (nth_error xs k) as [[]|]; try done. injection H as <-. exists c, q, o. cbn. by repeat split.
    + cbn [tk_xfer] in H. destruct (nth_error xs k) as [[sl|str|j r|]|]; try done.
      * destruct (read_item str); injection H as <-; exists c, q, o; cbn; by repeat split.
      * injection H as <-; exists c, q, o; cbn; by repeat split.
      * injection H as <-. cbn [notify_one]. destruct c; try (eexists _, q, o; cbn; by repeat split).
    + destruct (nth_error xs k) as [[]|]; try done; injection H as <-; exists c, q, o; cbn; by repeat split.
Qed.

Lemma tsteps_in_line evs x x' s h n :
  in_line n s h x -> (n + leaders evs <= 1)%nat -> tsteps evs x = Some x' ->
  in_line (n + leaders evs) (s ++ sent evs) (h ++ handled evs x) x'.
Proof.
  revert x s h n; induction evs as [|ev evs IH]; intros x s h n I B H; cbn [tsteps handled sent] in *.
  - injection H as <-. unfold leaders. cbn. by rewrite Nat.add_0_r, !app_nil_r.
  - destruct (tstep ev x) as [y|] eqn:S; [|done].
    assert (L : leaders (ev :: evs) = ((if is_sync_cmd ev then 1 else 0) + leaders evs)%nat).
    { unfold leaders. cbn [List.filter]. by destruct (is_sync_cmd ev). }
    rewrite L in *. assert (B' : (n + (if is_sync_cmd ev then 1 else 0) <= 1)%nat) by lia.
    pose proof (tstep_in_line ev x y s h n I B' S) as J. apply (IH _ _ _ _ J) in H; [|lia].
    rewrite <- !app_assoc in H. rewrite Nat.add_assoc.
    replace (sent [ev] ++ sent evs) with (sent (ev :: evs)) in H by (by destruct ev). exact H.
Qed.

(** ** Waiting tasks *)
Definition xfer_complete (p : xpc) : Prop :=
  match p with XRead s | XUnlock _ s => complete s | _ => True end.

(** The one task does not wait in vain. *)
Definition not_in_vain (x : tasks) : Prop :=
  Forall xfer_complete (tk_xfers x) /\
  match tk_cmds x with
  | [TPoll m] => tk_locks x (fm_slot m) = true \/ tk_xfers x <> [] \/ tk_permit x = true
  | [TPark m] => tk_locks x (fm_slot m) = true \/ tk_xfers x <> []
  | _ => True
  end.

Lemma with_xfer_complete k p xs :
  match p with Some q => xfer_complete q | None => True end ->
  Forall xfer_complete xs -> Forall xfer_complete (with_xfer k p xs).
Proof.
  intros P F. unfold with_xfer. apply List.Forall_app. split; [by apply Forall_take|].
  apply List.Forall_app. split; [destruct p; by repeat constructor|by apply Forall_drop].
Qed.

Lemma with_xfer_some k p xs : with_xfer k (Some p) xs <> [].
Proof. unfold with_xfer. intros E. apply app_eq_nil in E as [_ E]. done. Qed.

Lemma tstep_not_in_vain ev x x' s h n :
  in_line n s h x -> (n + (if is_sync_cmd ev then 1 else 0) <= 1)%nat ->
  match ev with UOpen _ str => complete str | UFail _ => False | _ => True end ->
  not_in_vain x -> tstep ev x = Some x' -> not_in_vain x'.
Proof.
  intros I B C [X W] H. destruct x as [b sy lk pm ws ch rx cs xs]. cbn [tk_xfers tk_cmds tk_locks tk_permit] in *.
  assert (CS : cs = [] \/ exists c, cs = [c] /\ ws = match c with TPark _ => [O] | _ => [] end).
  { destruct n; [by left; destruct I|right]. destruct I as (c & q & o & I1 & _ & _ & _ & I5 & _). by exists c. }
  assert (N : is_sync_cmd ev = false \/ cs = []).
  { destruct (is_sync_cmd ev); [right|by left]. destruct n; [by destruct I|lia]. }
  clear I B.
  destruct ev as [c m|c|i now|i| | | |k str|k|k]; cbn [tstep is_sync_cmd] in *; try done.
  - destruct (ch !! c) as [[ms []]|]; try done. by injection H as <-.
  - destruct (ch !! c) as [[ms []]|]; try done. by injection H as <-.
  - cbn [task_step] in H. destruct CS as [->|(c & -> & ->)]; [by rewrite lookup_nil in H|].
    destruct i as [|i]; cbn in H; [|done].
    destruct c as [|k|m|m|m|m|m|m| |]; try done.
    + injection H as <-. split; [done|]. cbn. by destruct rx.
    + destruct (ch !! k) as [[[|m ms] [|]]|]; try done; by injection H as <-.
    + injection H as <-. split; [done|]. cbn. destruct (fm_slot m <? slot_size)%N; cbn [negb]; [|done].
      destruct (lk (fm_slot m)) eqn:L; [by left|done].
    + destruct pm; injection H as <-; (split; [done|]); cbn; [done|]. destruct W as [W|[W|W]]; [by left|by right|done].
    + destruct (process_forward (fm_slot m) now (fm_id m) (fm_cmd m) (b (fm_slot m))) as [[d r] e].
      injection H as <-. split; [done|]. cbn. by destruct r as [[]|].
    + destruct sy; injection H as <-; (split; [|done]); cbn; [done|]. apply List.Forall_app. split; [done|by repeat constructor].
  - destruct CS as [->|(c & -> & ->)]; [by rewrite lookup_nil in H|]. destruct i as [|i]; cbn in H; [|done].
    destruct c; try done. by injection H as <-.
  - destruct sy; injection H as <-; [done|]. split; cbn [tk_xfers tk_cmds tk_locks tk_permit].
    + apply List.Forall_app. split; [done|by repeat constructor].
    + destruct CS as [->|(c & -> & ->)]; [done|]. destruct c; try done; by left.
  - destruct N as [N| ->]; [done|]. injection H as <-. done.
  - by injection H as <-.
  - destruct (nth_error xs k) as [[]|]; try done. injection H as <-. split; cbn [tk_xfers tk_cmds tk_locks tk_permit].
    + by apply with_xfer_complete.
    + destruct CS as [->|(c & -> & ->)]; [done|]. pose proof (with_xfer_some k (XRead str) xs).
      destruct c; try done; [by right; left|by right].
  - cbn [tk_xfer] in H. destruct (nth_error xs k) as [[sl|str|j r|]|] eqn:K; try done.
    + assert (Q : complete str). { apply nth_error_In in K. rewrite List.Forall_forall in X. by apply (X _ K). }
      destruct Q as [str E|str j d r E Q]; rewrite E in H; injection H as <-; (split; cbn [tk_xfers tk_cmds tk_locks tk_permit]; [by apply with_xfer_complete|]);
        (destruct CS as [->|(c & -> & ->)]; [done|]); (destruct c; try done; [right; left|right]; apply with_xfer_some).
    + assert (Q : complete r). { apply nth_error_In in K. rewrite List.Forall_forall in X. by apply (X _ K). }
      injection H as <-; (split; cbn [tk_xfers tk_cmds tk_locks tk_permit]; [by apply with_xfer_complete|]);
        (destruct CS as [->|(c & -> & ->)]; [done|]); (destruct c; try done; [right; left|right]; apply with_xfer_some).
    + injection H as <-. cbn [notify_one]. destruct CS as [->|(c & -> & ->)].
      * destruct ws; (split; [by apply with_xfer_complete|done]).
      * destruct c; (split; [by apply with_xfer_complete|cbn; try done]). by right; right.
Qed.

Lemma tsteps_not_in_vain evs x x' s h n :
  in_line n s h x -> (n + leaders evs <= 1)%nat -> no_failure evs ->
  not_in_vain x -> tsteps evs x = Some x' -> not_in_vain x'.
Proof.
  revert x s h n; induction evs as [|ev evs IH]; intros x s h n I B F V H; cbn [tsteps] in *.
  - by injection H as <-.
  - destruct (tstep ev x) as [y|] eqn:S; [|done]. inversion F as [|? ? F1 F2]; subst.
    assert (L : leaders (ev :: evs) = ((if is_sync_cmd ev then 1 else 0) + leaders evs)%nat).
    { unfold leaders. cbn [List.filter]. by destruct (is_sync_cmd ev). }
    rewrite L in *. assert (B' : (n + (if is_sync_cmd ev then 1 else 0) <= 1)%nat) by lia.
    apply (IH y _ _ _ (tstep_in_line ev x y s h n I B' S)); try done; [lia|].
    by apply (tstep_not_in_vain ev x y s h n).
Qed.

(** A parked task stays parked until some transfer has reached the leader again. *)
Definition only_connecting (xs : list xpc) : Prop := Forall (fun p => match p with XConnect _ => True | _ => False end) xs.

Lemma parked_steps i m evs x x' :
  tk_cmds x !! i = Some (TPark m) -> only_connecting (tk_xfers x) ->
  (forall k s, ~ In (UOpen k s) evs) -> tsteps evs x = Some x' -> tk_cmds x' !! i = Some (TPark m).
Proof.
  revert x; induction evs as [|ev evs IH]; intros x P X O H; cbn [tsteps] in *; [by injection H as <-|].
  destruct (tstep ev x) as [y|] eqn:S; [|done].
  assert (G : tk_cmds y !! i = Some (TPark m) /\ only_connecting (tk_xfers y)).
  { destruct x as [b sy lk pm ws ch rx cs xs]. cbn [tk_cmds tk_xfers] in *.
    assert (U : forall a k c, cs !! k = Some a -> a <> TPark m -> <[k := c]> cs !! i = Some (TPark m)).
    { intros a k c K N. rewrite list_lookup_insert_ne; [done|]. intros ->. congruence. }
    assert (XS : forall k p, nth_error xs k = Some p -> match p with XConnect _ => True | _ => False end).
    { intros k p K. apply nth_error_In in K. unfold only_connecting in X. rewrite List.Forall_forall in X. by apply (X p). }
    destruct ev as [c m'|c|k now|k| | | |k str|k|k]; cbn [tstep] in S.
    - destruct (ch !! c) as [[ms []]|]; try done. by injection S as <-.
    - destruct (ch !! c) as [[ms []]|]; try done. by injection S as <-.
    - cbn [task_step] in S. destruct (cs !! k) as [p|] eqn:K; [|done].
      destruct p as [|c|m'|m'|m'|m'|m'|m'| |]; try done.
      + injection S as <-. split; [|done]. by apply (U _ _ _ K).
      + destruct (ch !! c) as [[[|? ms] [|]]|]; try done; injection S as <-; (split; [|done]); by apply (U _ _ _ K).
      + injection S as <-. split; [|done]. by apply (U _ _ _ K).
      + destruct pm; injection S as <-; (split; [|done]); by apply (U _ _ _ K).
      + destruct (process_forward (fm_slot m') now (fm_id m') (fm_cmd m') (b (fm_slot m'))) as [[d r] e].
        injection S as <-. split; [|done]. by apply (U _ _ _ K).
      + cbn [tk_sync] in S. destruct sy; injection S as <-; cbn [tk_cmds tk_xfers]; (split; [by apply (U _ _ _ K)|]); [done|].
        apply List.Forall_app. split; [done|by repeat constructor].
    - destruct (cs !! k) as [[| | | | | | |m'| |]|] eqn:K; try done. injection S as <-. split; [|done]. by apply (U _ _ _ K).
    - cbn [tk_sync] in S. destruct sy; injection S as <-; [done|]. split; [done|].
      apply List.Forall_app. split; [done|by repeat constructor].
    - injection S as <-. split; [|done]. cbn [tk_cmds]. rewrite lookup_app_l; [done|]. by eapply lookup_lt_Some.
    - by injection S as <-.
    - exfalso. apply (O k str). by left.
    - cbn [tk_xfer] in S. destruct (nth_error xs k) as [p|] eqn:K; [|done]. specialize (XS k p K). by destruct p.
    - assert (W : only_connecting (with_xfer k None xs)).
      { unfold only_connecting, with_xfer. apply List.Forall_app. split; [by apply Forall_take|by apply Forall_drop]. }
      destruct (nth_error xs k) as [p|] eqn:K; [|done]. specialize (XS k p K). destruct p; try done. by injection S as <-. }
  destruct G as [G1 G2]. apply (IH y); try done. intros k s I. apply (O k s). by right.
Qed.

(** ** After promotion *)
Definition busy (c : tpc) : nat := match c with TLoad | TEnd | TDead => 0 | _ => 1 end.
Definition busy_all (cs : list tpc) : nat := list_sum (map busy cs).

Lemma sum_insert (f : tpc -> nat) l i a b :
  l !! i = Some b -> (list_sum (map f (<[i := a]> l)) + f b = list_sum (map f l) + f a)%nat.
Proof.
  revert i; induction l as [|c l IH]; intros [|i] H; cbn in H; try done.
  - injection H as ->. cbn [map list_sum fold_right insert list_insert]. change (fold_right Nat.add 0%nat) with list_sum. lia.
  - change (<[Datatypes.S i := a]> (c :: l)) with (c :: <[i := a]> l). cbn [map].
    change (list_sum (f c :: ?q)) with (f c + list_sum q)%nat. specialize (IH i H). cbn [list_sum fold_right] in *.
    change (fold_right Nat.add 0%nat) with list_sum. lia.
Qed.

Lemma busy_step ev x x' :
  tk_rx x = None -> is_sync_cmd ev = false -> tstep ev x = Some x' ->
  tk_rx x' = None /\ (length (finishes ev x) + busy_all (tk_cmds x') <= busy_all (tk_cmds x))%nat.
Proof.
  intros R Y S. destruct x as [b sy lk pm ws ch rx cs xs]. cbn [tk_rx] in R. subst rx.
  assert (U : forall k a c, cs !! k = Some a -> (busy_all (<[k := c]> cs) + busy a = busy_all cs + busy c)%nat).
  { intros k a c K. by apply sum_insert. }
  destruct ev as [c m|c|k now|k| | | |k str|k|k]; cbn [tstep finishes length Nat.add tk_cmds tk_db] in *; try done.
  - destruct (ch !! c) as [[ms []]|]; try done. by injection S as <-.
  - destruct (ch !! c) as [[ms []]|]; try done. by injection S as <-.
  - cbn [task_step] in S. destruct (cs !! k) as [p|] eqn:K; [|done].
    destruct p as [|c|m|m|m|m|m|m| |]; try done.
    + injection S as <-. split; [done|]. cbn [tk_cmds]. specialize (U _ _ TEnd K). cbn [busy length] in *. lia.
    + destruct (ch !! c) as [[[|m ms] [|]]|]; try done; injection S as <-; (split; [done|]); cbn [tk_cmds length].
      * specialize (U _ _ TLoad K). cbn [busy] in *. lia.
      * specialize (U _ _ (TWait m) K). cbn [busy] in *. lia.
      * specialize (U _ _ (TWait m) K). cbn [busy] in *. lia.
      * specialize (U _ _ TLoad K). cbn [busy] in *. lia.
    + injection S as <-. split; [done|]. cbn [tk_cmds length]. pose proof (U _ _ (if negb (fm_slot m <? slot_size)%N then TDead else if lk (fm_slot m) then TPoll m else TTry m) K) as V.
      destruct (fm_slot m <? slot_size)%N; cbn [negb busy length] in *; [|lia]. destruct (lk (fm_slot m)); cbn [busy length] in *; lia.
    + destruct pm; injection S as <-; (split; [done|]); cbn [tk_cmds length].
      * specialize (U _ _ (TWait m) K). cbn [busy] in *. lia.
      * specialize (U _ _ (TPark m) K). cbn [busy] in *. lia.
    + destruct (process_forward (fm_slot m) now (fm_id m) (fm_cmd m) (b (fm_slot m))) as [[d r] e].
      injection S as <-. split; [done|]. cbn [tk_cmds fst snd].
      destruct r as [[]|]; cbn [length].
      * specialize (U _ _ TLoad K). cbn [busy] in *. lia.
      * specialize (U _ _ TLoad K). cbn [busy] in *. lia.
      * specialize (U _ _ (TSync m) K). cbn [busy] in *. lia.
      * specialize (U _ _ TDead K). cbn [busy] in *. lia.
    + cbn [tk_sync] in S. destruct sy; injection S as <-; (split; [done|]); cbn [tk_cmds length].
      * specialize (U _ _ (TSleep m) K). cbn [busy] in *. lia.
      * specialize (U _ _ (TWait m) K). cbn [busy] in *. lia.
  - destruct (cs !! k) as [[| | | | | | |m| |]|] eqn:K; try done. injection S as <-. split; [done|]. cbn [tk_cmds length].
    specialize (U _ _ (TWait m) K). cbn [busy] in *. lia.
  - cbn [tk_sync] in S. destruct sy; by injection S as <-.
  - by injection S as <-.
  - destruct (nth_error xs k) as [[]|]; try done. by injection S as <-.
  - cbn [tk_xfer] in S. destruct (nth_error xs k) as [[sl|str|j r|]|]; try done.
    + destruct (read_item str); by injection S as <-.
    + by injection S as <-.
    + injection S as <-. cbn [notify_one]. destruct ws as [|i ws]; [done|]. split; [done|]. cbn [tk_cmds].
      destruct (cs !! i) as [[]|] eqn:K; try done. specialize (U _ _ (TWait m) K). cbn [busy] in *. lia.
  - destruct (nth_error xs k) as [[]|]; try done; by injection S as <-.
Qed.

Lemma busy_steps evs x x' :
  tk_rx x = None -> ~ In USyncCmd evs -> tsteps evs x = Some x' ->
  (length (handled evs x) + busy_all (tk_cmds x') <= busy_all (tk_cmds x))%nat.
Proof.
  revert x; induction evs as [|ev evs IH]; intros x R Y H; cbn [tsteps handled] in *; [injection H as <-; cbn; lia|].
  destruct (tstep ev x) as [y|] eqn:S; [|done].
  destruct (busy_step ev x y R) as [R' B]; [destruct ev; try done; exfalso; apply Y; by left|done|].
  rewrite app_length. specialize (IH y R'). assert (~ In USyncCmd evs) by (intros I; apply Y; by right).
  specialize (IH ltac:(done) H). lia.
Qed.

Lemma busy_le cs : (busy_all cs <= length cs)%nat.
Proof.
  unfold busy_all. induction cs as [|c cs IH]; [done|]. cbn [map length]. change (list_sum (busy c :: ?q)) with (busy c + list_sum q)%nat.
  destruct c; cbn [busy]; lia.
Qed.

(** ** A channel that is no longer the current one *)
Definition on_chan (c : nat) (p : tpc) : nat := match p with TRecv c' => if Nat.eqb c' c then 1 else 0 | _ => 0 end.

Definition takes (c : nat) (ev : tevent) (x : tasks) : list fwd_msg :=
  match ev with
  | UStep i _ =>
      match tk_cmds x !! i with
      | Some (TRecv c') =>
          if Nat.eqb c' c then match tk_chans x !! c with Some (Chan (m :: _) _) => [m] | _ => [] end else []
      | _ => []
      end
  | _ => []
  end.

Lemma taken_step c ev x x' :
  tk_rx x <> Some c -> is_sync_cmd ev = false -> tstep ev x = Some x' ->
  tk_rx x' <> Some c /\
  (length (takes c ev x) + list_sum (map (on_chan c) (tk_cmds x')) <= list_sum (map (on_chan c) (tk_cmds x)))%nat.
Proof.
  intros R Y S. destruct x as [b sy lk pm ws ch rx cs xs]. cbn [tk_rx] in R.
  assert (U : forall k a q, cs !! k = Some a -> on_chan c q = 0%nat ->
            (list_sum (map (on_chan c) (<[k := q]> cs)) + on_chan c a <= list_sum (map (on_chan c) cs))%nat).
  { intros k a q K Z. pose proof (sum_insert (on_chan c) cs k q a K). lia. }
  destruct ev as [c' m|c'|k now|k| | | |k str|k|k]; cbn [tstep takes length Nat.add tk_cmds tk_chans] in *; try done.
  - destruct (ch !! c') as [[ms []]|]; try done. by injection S as <-.
  - destruct (ch !! c') as [[ms []]|]; try done. by injection S as <-.
  - cbn [task_step] in S. destruct (cs !! k) as [p|] eqn:K; [|done].
    destruct p as [|c'|m|m|m|m|m|m| |]; try done.
    + injection S as <-. split; [done|]. cbn [tk_cmds length].
      assert (Z : on_chan c (match rx with Some c0 => TRecv c0 | None => TEnd end) = 0%nat).
      { destruct rx as [c0|]; [|done]. cbn. destruct (Nat.eqb_spec c0 c); congruence. }
      specialize (U _ _ _ K Z). lia.
    + assert (Z : forall y q ch', Some (Tasks b sy lk pm ws ch' rx (<[k := q]> cs) xs) = Some y -> on_chan c q = 0%nat ->
        tk_rx y <> Some c /\ ((if Nat.eqb c' c then 1 else 0) + list_sum (map (on_chan c) (tk_cmds y)) <= list_sum (map (on_chan c) cs))%nat).
      { intros y q ch' [= <-] Q. split; [done|]. cbn [tk_cmds]. specialize (U _ _ _ K Q). cbn [on_chan] in U. lia. }
      assert (L : (length (if Nat.eqb c' c then match ch !! c with Some (Chan (m :: _) _) => [m] | _ => [] end else []) <= if Nat.eqb c' c then 1 else 0)%nat).
      { destruct (Nat.eqb c' c); [|done]. destruct (ch !! c) as [[[] ?]|]; cbn; lia. }
      destruct (ch !! c') as [[[|m ms] [|]]|] eqn:CH; try done; (apply Z in S; [|done]); (destruct S as [S1 S2]; split; [done|]); lia.
    + injection S as <-. split; [done|]. cbn [tk_cmds length]. apply (U _ _ (if negb (fm_slot m <? slot_size)%N then TDead else if lk (fm_slot m) then TPoll m else TTry m)) in K; [lia|].
      by destruct (fm_slot m <? slot_size)%N, (lk (fm_slot m)).
    + destruct pm; injection S as <-; (split; [done|]); cbn [tk_cmds length].
      * specialize (U _ _ (TWait m) K eq_refl). lia.
      * specialize (U _ _ (TPark m) K eq_refl). lia.
    + destruct (process_forward (fm_slot m) now (fm_id m) (fm_cmd m) (b (fm_slot m))) as [[d r] e].
      injection S as <-. split; [done|]. cbn [tk_cmds length].
      apply (U _ _ (match r with Some Gt => TSync m | Some _ => TLoad | None => TDead end)) in K; [lia|]. by destruct r as [[]|].
    + cbn [tk_sync] in S. destruct sy; injection S as <-; (split; [done|]); cbn [tk_cmds length].
      * specialize (U _ _ (TSleep m) K eq_refl). lia.
      * specialize (U _ _ (TWait m) K eq_refl). lia.
  - destruct (cs !! k) as [[| | | | | | |m| |]|] eqn:K; try done. injection S as <-. split; [done|]. cbn [tk_cmds length].
    specialize (U _ _ (TWait m) K eq_refl). lia.
  - cbn [tk_sync] in S. destruct sy; by injection S as <-.
  - by injection S as <-.
  - destruct (nth_error xs k) as [[]|]; try done. by injection S as <-.
  - cbn [tk_xfer] in S. destruct (nth_error xs k) as [[sl|str|j r|]|]; try done.
    + destruct (read_item str); by injection S as <-.
    + by injection S as <-.
    + injection S as <-. cbn [notify_one]. destruct ws as [|i ws]; [done|]. split; [done|]. cbn [tk_cmds].
      destruct (cs !! i) as [[]|] eqn:K; try done. specialize (U _ _ (TWait m) K eq_refl). lia.
  - destruct (nth_error xs k) as [[]|]; try done; by injection S as <-.
Qed.

Lemma taken_steps c evs x x' :
  tk_rx x <> Some c -> ~ In USyncCmd evs -> tsteps evs x = Some x' ->
  (length (taken c evs x) + list_sum (map (on_chan c) (tk_cmds x')) <= list_sum (map (on_chan c) (tk_cmds x)))%nat.
Proof.
  revert x; induction evs as [|ev evs IH]; intros x R Y H; cbn [tsteps taken] in *; [injection H as <-; cbn; lia|].
  destruct (tstep ev x) as [y|] eqn:S; [|done].
  destruct (taken_step c ev x y R) as [R' B]; [destruct ev; try done; exfalso; apply Y; by left|done|].
  rewrite app_length. specialize (IH y R'). assert (~ In USyncCmd evs) by (intros I; apply Y; by right).
  specialize (IH ltac:(done) H). unfold takes in B. lia.
Qed.

(** ** Steps of the tasks alone *)
Definition to_go (rx : option nat) (p : tpc) : nat :=
  match p with
  | TLoad => 1
  | TRecv c => match rx with Some c' => if Nat.eqb c c' then 0 else 2 | None => 2 end
  | TWait _ => 3 | TTry _ => 2 | TPoll _ => 1 | TSync _ => 1
  | TPark _ | TSleep _ | TEnd | TDead => 0
  end.

Definition queued (ch : list chan) : nat := length (concat (map ch_msgs ch)).

Definition effort (x : tasks) : nat :=
  list_sum (map (to_go (tk_rx x)) (tk_cmds x)) + 4 * queued (tk_chans x) +
  (if tk_permit x then 4 else 0) + (if tk_syncing x then 0 else 4).

Definition rx_open (x : tasks) : Prop := forall c, tk_rx x = Some c -> exists ms, tk_chans x !! c = Some (Chan ms true).

Lemma effort_step i now x x' : rx_open x -> tstep (UStep i now) x = Some x' -> rx_open x' /\ (effort x' + 1 <= effort x)%nat.
Proof.
  intros R S. destruct x as [b sy lk pm ws ch rx cs xs]. cbn [tstep task_step] in S. unfold effort.
  destruct (cs !! i) as [p|] eqn:K; [|done].
  pose proof (fun q => sum_insert (to_go rx) cs i q p K) as U.
  destruct p as [|c|m|m|m|m|m|m| |]; try done.
  - injection S as <-. split; [done|]. cbn [tk_cmds tk_rx tk_chans tk_permit tk_syncing].
    specialize (U (match rx with Some c => TRecv c | None => TEnd end)). destruct rx as [c|]; cbn [to_go] in U; [rewrite Nat.eqb_refl in U|]; lia.
  - destruct (ch !! c) as [[[|m ms] o]|] eqn:C.
    + destruct o; [done|]. injection S as <-. split; [done|]. cbn [tk_cmds tk_rx tk_chans tk_permit tk_syncing].
      specialize (U TLoad). cbn [to_go] in U. destruct rx as [c'|]; [|lia]. destruct (Nat.eqb_spec c c') as [->|]; [|lia].
      destruct (R c' eq_refl) as [ms E]. cbn [tk_chans] in E. congruence.
    + injection S as <-. split.
      { intros c' E. cbn [tk_rx tk_chans] in *. destruct (R c' E) as [ms' E']. cbn [tk_chans] in E'.
        destruct (decide (c = c')) as [->|N].
        - exists ms. rewrite list_lookup_insert; [congruence|]. by eapply lookup_lt_Some.
        - exists ms'. by rewrite list_lookup_insert_ne. }
      cbn [tk_cmds tk_rx tk_chans tk_permit tk_syncing]. specialize (U (TWait m)). cbn [to_go] in U.
      destruct (concat_insert ch_msgs ch c _ C) as (l1 & l2 & E1 & E2). unfold queued. rewrite E1, E2. cbn [ch_msgs].
      rewrite !app_length. cbn [length]. lia.
    + injection S as <-. split; [done|]. cbn [tk_cmds tk_rx tk_chans tk_permit tk_syncing].
      specialize (U TLoad). cbn [to_go] in U. destruct rx as [c'|]; [|lia]. destruct (Nat.eqb_spec c c') as [->|]; [|lia].
      destruct (R c' eq_refl) as [ms E]. cbn [tk_chans] in E. congruence.
  - injection S as <-. split; [done|]. cbn [tk_cmds tk_rx tk_chans tk_permit tk_syncing].
    specialize (U (if negb (fm_slot m <? slot_size)%N then TDead else if lk (fm_slot m) then TPoll m else TTry m)).
    destruct (fm_slot m <? slot_size)%N, (lk (fm_slot m)); cbn [to_go negb] in *; lia.
  - destruct pm; injection S as <-; (split; [done|]); cbn [tk_cmds tk_rx tk_chans tk_permit tk_syncing].
    + specialize (U (TWait m)). cbn [to_go] in U. lia.
    + specialize (U (TPark m)). cbn [to_go] in U. lia.
  - destruct (process_forward (fm_slot m) now (fm_id m) (fm_cmd m) (b (fm_slot m))) as [[d r] e].
    injection S as <-. split; [done|]. cbn [tk_cmds tk_rx tk_chans tk_permit tk_syncing].
    specialize (U (match r with Some Gt => TSync m | Some _ => TLoad | None => TDead end)).
    destruct r as [[]|]; cbn [to_go] in U; lia.
  - cbn [tk_sync] in S. destruct sy; injection S as <-; (split; [done|]); cbn [tk_cmds tk_rx tk_chans tk_permit tk_syncing].
    + specialize (U (TSleep m)). cbn [to_go] in U. lia.
    + specialize (U (TWait m)). cbn [to_go] in U. lia.
Qed.

Lemma effort_steps evs x x' :
  rx_open x -> Forall (fun ev => exists i now, ev = UStep i now) evs -> tsteps evs x = Some x' -> (length evs <= effort x)%nat.
Proof.
  intros R F. revert x R; induction F as [|ev evs (i & now & ->) _ IH]; intros x R H; cbn [tsteps length] in *; [lia|].
  destruct (tstep (UStep i now) x) as [y|] eqn:S; [|done].
  destruct (effort_step i now x y R S) as [R' E]. specialize (IH y R' H). lia.
Qed.

Lemma effort_le x : (effort x <= 3 * length (tk_cmds x) + 4 * queued (tk_chans x) + 8)%nat.
Proof.
  unfold effort. assert (L : (list_sum (map (to_go (tk_rx x)) (tk_cmds x)) <= 3 * length (tk_cmds x))%nat).
  { generalize (tk_cmds x). intros cs. induction cs as [|c cs IH]; [done|]. cbn [map length].
    change (list_sum (to_go (tk_rx x) c :: ?q)) with (to_go (tk_rx x) c + list_sum q)%nat.
    assert (to_go (tk_rx x) c <= 3)%nat; [|lia]. destruct c; cbn [to_go]; try lia. destruct (tk_rx x); [|lia]. destruct (Nat.eqb _ _); lia. }
  destruct (tk_permit x), (tk_syncing x); lia.
Qed.

(** ** One leader whose connection stays up: Follower.v *)
Definition as_cpc (c : tpc) : cpc :=
  match c with
  | TLoad | TRecv _ | TEnd => CRecv
  | TWait m => CWait m
  | TPoll m | TPark m => CAwait m
  | TTry m => CTry m
  | TSync m => CSync m
  | TSleep m => CSleep m
  | TDead => CDead
  end.

Definition as_follower (x : tasks) (f : follower) : Prop :=
  fo_db f = tk_db x /\ fo_syncing f = tk_syncing x /\ fo_locks f = tk_locks x /\ fo_permit f = tk_permit x /\ fo_xfers f = tk_xfers x /\
  ((tk_cmds x = [] /\ tk_chans x = [] /\ tk_rx x = None /\ tk_waiters x = [] /\ fo_cmd f = CRecv /\ fo_rx f = []) \/
   (exists c q, tk_cmds x = [c] /\ tk_chans x = [Chan q true] /\ tk_rx x = Some O /\ (forall k, c = TRecv k -> k = O) /\
      tk_waiters x = (match c with TPark _ => [O] | _ => [] end) /\ c <> TEnd /\
      (match c with TPark _ => tk_permit x = false | _ => True end) /\
      fo_cmd f = as_cpc c /\ fo_rx f = q)).

Lemma fsteps_app evs evs' x : fsteps (evs ++ evs') x = match fsteps evs x with Some y => fsteps evs' y | None => None end.
Proof. revert x; induction evs as [|ev evs IH]; intros x; cbn [fsteps app]; [done|]. by destruct (fstep ev x). Qed.

Ltac sim evs := exists evs; eexists; cbn [fsteps fstep cmd_step xfer_step]; split; [reflexivity|].
Ltac sim_same := repeat split; try done.

Lemma tstep_as_follower ev x x' f :
  as_follower x f -> (is_sync_cmd ev = true -> tk_cmds x = []) ->
  match ev with UClose | UHangup _ => False | _ => True end ->
  tstep ev x = Some x' -> exists evs f', fsteps evs f = Some f' /\ as_follower x' f'.
Proof.
  intros (E1 & E2 & E3 & E4 & E5 & D) L N H. destruct x as [b sy lk pm ws ch rx cs xs], f as [b' sy' lk' pm' rxq c' xs'].
  cbn [fo_db fo_syncing fo_locks fo_permit fo_xfers fo_cmd fo_rx tk_db tk_syncing tk_locks tk_permit tk_xfers tk_cmds tk_chans tk_rx tk_waiters] in *.
  subst b' sy' lk' pm' xs'.
  destruct ev as [k m|k|i now|i| | | |k str|k|k]; cbn [tstep is_sync_cmd] in *; try done.
  - destruct D as [(-> & -> & _)|(c & q & -> & -> & -> & I4 & -> & I6 & I7 & -> & ->)]; [by rewrite lookup_nil in H|].
    destruct k as [|k]; cbn in H; [|done]. injection H as <-. sim [VMsg m]. sim_same. right. exists c, (q ++ [m]). sim_same.
  - cbn [task_step] in H.
    destruct D as [(-> & _)|(c & q & -> & -> & -> & I4 & -> & I6 & I7 & -> & ->)]; [by rewrite lookup_nil in H|].
    destruct i as [|i]; cbn in H; [|done].
    destruct c as [|k|m|m|m|m|m|m| |]; cbn [as_cpc]; try done.
    + injection H as <-. sim (@nil fevent). sim_same. right. exists (TRecv 0), q. sim_same. congruence.
    + rewrite (I4 k eq_refl) in H. cbn in H. destruct q as [|m q]; [done|]. injection H as <-.
      sim [VStep now]. sim_same. right. exists (TWait m), q. sim_same.
    + injection H as <-. sim [VStep now]. sim_same. right. eexists _, q. split; [reflexivity|]. cbn.
      destruct (fm_slot m <? slot_size)%N; cbn [negb]; [destruct (lk (fm_slot m)); sim_same|sim_same].
    + destruct pm; injection H as <-.
      * sim [VStep now]. sim_same. right. exists (TWait m), q. sim_same.
      * sim (@nil fevent). sim_same. right. exists (TPark m), q. sim_same.
    + destruct (process_forward (fm_slot m) now (fm_id m) (fm_cmd m) (b (fm_slot m))) as [[d r] e] eqn:P. injection H as <-.
      exists [VStep now]. eexists. cbn [fsteps fstep cmd_step]. rewrite P. split; [reflexivity|]. sim_same. right. eexists _, q. split; [reflexivity|]. cbn.
      destruct r as [[]|]; sim_same.
    + destruct sy; injection H as <-.
      * sim [VStep now]. sim_same. right. exists (TSleep m), q. sim_same.
      * sim [VStep now]. sim_same. right. exists (TWait m), q. sim_same.
  - destruct D as [(-> & _)|(c & q & -> & -> & -> & I4 & -> & I6 & I7 & -> & ->)]; [by rewrite lookup_nil in H|].
    destruct i as [|i]; cbn in H; [|done]. destruct c; try done. injection H as <-. sim [VWake]. sim_same. right. eexists _, q. sim_same.
  - destruct sy; injection H as <-; (sim [VSyncAll]; sim_same).
  - rewrite (L eq_refl) in *. injection H as <-. sim (@nil fevent). sim_same. right.
    destruct D as [(_ & -> & _ & -> & -> & ->)|(c & q & Q & _)]; [|done]. exists TLoad, []. sim_same.
  - destruct (nth_error xs k) as [[]|] eqn:K; try done. injection H as <-.
    exists [VOpen k str]. eexists. cbn [fsteps fstep]. rewrite K. split; [reflexivity|]. sim_same.
  - cbn [tk_xfer] in H. destruct (nth_error xs k) as [[sl|str|j r|]|] eqn:K; try done.
    + destruct (read_item str) as [j d r| |] eqn:R; injection H as <-;
        (exists [VXfer k]; eexists; cbn [fsteps fstep xfer_step]; rewrite K, R; split; [reflexivity|]; sim_same).
    + injection H as <-. exists [VXfer k]. eexists. cbn [fsteps fstep xfer_step]. rewrite K. split; [reflexivity|]. sim_same.
    + injection H as <-. cbn [notify_one].
      destruct D as [(-> & -> & -> & -> & -> & ->)|(c & q & -> & -> & -> & I4 & -> & I6 & I7 & -> & ->)].
      * exists [VXfer k]. eexists. cbn [fsteps fstep xfer_step]. rewrite K. split; [reflexivity|]. sim_same. left. sim_same.
      * assert (Z : (forall m, c <> TPark m) -> exists evs f', fsteps evs (Follower b sy lk pm q (as_cpc c) xs) = Some f' /\
                  as_follower (Tasks b sy lk true [] [Chan q true] (Some O) [c] (with_xfer k None xs)) f').
        { intros Z. exists [VXfer k]. eexists. cbn [fsteps fstep xfer_step]. rewrite K. split; [reflexivity|]. sim_same. right.
          exists c, q. sim_same; destruct c; try done; by edestruct Z. }
        destruct c; try (apply Z; done). cbn in I7. subst pm.
        exists [VXfer k; VStep 0]. eexists. cbn [fsteps fstep xfer_step]. rewrite K. split; [reflexivity|]. sim_same. right.
        exists (TWait m), q. sim_same.
  - destruct (nth_error xs k) as [[]|] eqn:K; try done; injection H as <-;
      (exists [VFail k]; eexists; cbn [fsteps fstep]; rewrite K; split; [reflexivity|]; sim_same).
Qed.

Lemma tsteps_as_follower evs x x' f n :
  as_follower x f -> length (tk_cmds x) = n -> (n + leaders evs <= 1)%nat ->
  Forall (fun ev => match ev with UClose | UHangup _ => False | _ => True end) evs ->
  tsteps evs x = Some x' -> exists evs' f', fsteps evs' f = Some f' /\ as_follower x' f'.
Proof.
  intros A LN B F. revert x f n A LN B; induction F as [|ev evs N F IH]; intros x f n A LN B H; cbn [tsteps] in H.
  - injection H as <-. by exists [], f.
  - destruct (tstep ev x) as [y|] eqn:S; [|done].
    assert (L : leaders (ev :: evs) = ((if is_sync_cmd ev then 1 else 0) + leaders evs)%nat).
    { unfold leaders. cbn [List.filter]. by destruct (is_sync_cmd ev). }
    rewrite L in B.
    destruct (tstep_as_follower ev x y f A) as (e1 & f1 & S1 & A1); try done.
    { intros Y. rewrite Y in B. destruct (tk_cmds x); [done|cbn in LN; lia]. }
    assert (LY : (length (tk_cmds y) <= n + (if is_sync_cmd ev then 1 else 0))%nat).
    { destruct A1 as (_ & _ & _ & _ & _ & [(E & _)|(c & q & E & _)]); rewrite E; cbn [length]; [lia|].
      destruct (is_sync_cmd ev) eqn:Y; [lia|]. destruct n; [|lia]. exfalso.
      destruct A as (_ & _ & _ & _ & _ & [(A2 & A3 & A4 & A5 & _)|(c0 & q0 & A2 & _)]); [|by rewrite A2 in LN].
      destruct x as [b sy lk pm ws ch rx cs xs]. cbn [tk_cmds tk_chans tk_rx tk_waiters] in *. subst.
      destruct ev; cbn in S; rewrite ?lookup_nil in S; try done.
      - destruct sy; by injection S as <-.
      - destruct (nth_error xs x) as [[]|]; try done. by injection S as <-.
      - destruct (nth_error xs x) as [[sl|str|j r|]|]; try done; try by injection S as <-.
        destruct (read_item str); by injection S as <-.
      - destruct (nth_error xs x) as [[]|]; try done; by injection S as <-. }
    destruct (IH y f1 (length (tk_cmds y)) A1 eq_refl ltac:(lia) H) as (e2 & f2 & S2 & A2).
    exists (e1 ++ e2), f2. split; [|done]. by rewrite fsteps_app, S1.
Qed.

(** A transfer that failed is the last one. *)
Lemma tk_failed_steps evs x x' :
  tk_syncing x = true -> tk_xfers x = [] -> tsteps evs x = Some x' ->
  tk_syncing x' = true /\ tk_xfers x' = [] /\ tk_locks x' = tk_locks x.
Proof.
  revert x; induction evs as [|ev evs IH]; intros x Y X H; cbn [tsteps] in *; [by injection H as <-|].
  destruct (tstep ev x) as [y|] eqn:S; [|done].
  assert (G : tk_syncing y = true /\ tk_xfers y = [] /\ tk_locks y = tk_locks x).
  { destruct x as [b sy lk pm ws ch rx cs xs]. cbn [tk_syncing tk_xfers tk_locks] in *. subst sy xs.
    destruct ev as [c m|c|k now|k| | | |k str|k|k]; cbn [tstep tk_sync] in S.
    - destruct (ch !! c) as [[ms []]|]; try done. by injection S as <-.
    - destruct (ch !! c) as [[ms []]|]; try done. by injection S as <-.
    - cbn [task_step tk_sync] in S. destruct (cs !! k) as [p|]; [|done].
      destruct p as [|c|m|m|m|m|m|m| |]; try done; try by injection S as <-.
      + destruct (ch !! c) as [[[|? ms] [|]]|]; try done; by injection S as <-.
      + destruct pm; by injection S as <-.
      + destruct (process_forward (fm_slot m) now (fm_id m) (fm_cmd m) (b (fm_slot m))) as [[d r] e]. by injection S as <-.
    - destruct (cs !! k) as [[]|]; try done. by injection S as <-.
    - by injection S as <-.
    - by injection S as <-.
    - by injection S as <-.
    - destruct k; done.
    - cbn [tk_xfer] in S. destruct k; done.
    - destruct k; done. }
  destruct G as (G1 & G2 & G3). destruct (IH y G1 G2 H) as (A & B & C). by rewrite C.
Qed.
