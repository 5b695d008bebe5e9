(** The listener when accepting fails (C106). *)
From Verif Require Import BytesFacts Limit.
Import ListNotations.
Open Scope N_scope.

(** How often accepting has failed since it last succeeded. *)
Fixpoint refusals_from (n : N) (evs : list levent) : N :=
  match evs with
  | [] => n
  | LRefused :: r => refusals_from (n + 1) r
  | LAccepted :: r => refusals_from 0 r
  | _ :: r => refusals_from n r
  end.
Definition refusals (evs : list levent) : N := refusals_from 0 evs.

(** After [n] failures in a row: the time until the next attempt. *)
Definition backed_off (n : N) (ph : lphase) (stopped : Prop) : Prop :=
  match ph with
  | LWait => n = 0
  | LAccept b => n <= 7 /\ b = 2 ^ n
  | LSleep b => 1 <= n <= 7 /\ b = 2 ^ (n - 1)
  | LDown => n = 8 \/ stopped
  end.

Lemma backed_off_steps evs : forall n (P : Prop) x x',
  lsteps evs x = Some x' -> backed_off n (lm_phase x) P -> backed_off (refusals_from n evs) (lm_phase x') (P \/ In LShutdown evs).
Proof.
  induction evs as [|ev evs IH]; intros n P x x' H B; cbn [lsteps] in H.
  - injection H as <-. destruct (lm_phase x); cbn in *; tauto.
  - destruct (lstep ev x) as [y|] eqn:E; [|done].
    assert (W : forall m Q, backed_off (refusals_from m evs) (lm_phase x') (Q \/ In LShutdown evs) ->
                (Q -> P \/ LShutdown = ev) -> backed_off (refusals_from m evs) (lm_phase x') (P \/ In LShutdown (ev :: evs))).
    { intros m Q C I. destruct (lm_phase x'); cbn in *; try done. destruct C as [C|[C|C]]; try tauto. destruct (I C) as [?|<-]; tauto. }
    destruct x as [p ph hs nx]. cbn [lm_phase] in B.
    assert (HE : forall h how, ev = HEnd h how -> lm_phase y = ph).
    { intros h how ->. cbn in E. destruct ph; (destruct (existsb _ _); [by injection E as <-|done]). }
    destruct ev; cbn [refusals_from].
    + destruct ph; try done. cbn in E. destruct (p =? 0); [done|]. injection E as <-.
      apply (W n P); [|tauto]. apply (IH n P _ x' H). cbn in *. subst n. split; [lia|done].
    + destruct ph; try done. injection E as <-. apply (W 0 P); [|tauto]. by apply (IH 0 P _ x' H).
    + destruct ph as [|b|b|]; try done. cbn in E. destruct B as [L ->].
      destruct (64 <? 2 ^ n) eqn:C; injection E as <-; (apply (W (n + 1) P); [|tauto]); apply (IH (n + 1) P _ x' H); cbn.
      * left. destruct (decide (n = 7)) as [->|Q]; [done|]. exfalso.
        assert (2 ^ n <= 2 ^ 6) by (apply N.pow_le_mono_r; lia). lia.
      * assert (n <> 7) by (intros ->; done). split; [lia|]. by rewrite N.add_sub.
    + destruct ph as [|b|b|]; try done. cbn [lstep] in E. injection E as <-. destruct B as [L ->].
      apply (W n P); [|tauto]. apply (IH n P _ x' H). cbn [backed_off lm_phase]. split; [lia|].
      change (2 * 2 ^ (n - 1) = 2 ^ n). rewrite <- N.pow_succ_r'. f_equal. lia.
    + assert (D : lm_phase y = LDown) by (destruct ph; try done; by injection E as <-).
      apply (W n True); [|tauto]. apply (IH n True _ x' H). rewrite D. cbn. tauto.
    + apply (W n P); [|tauto]. apply (IH n P _ x' H). by rewrite (HE h how eq_refl).
Qed.

(** Accepting is attempted again after 1, 2, 4, 8, 16, 32 and 64 seconds, a success resets the waiting time,
    and the listener gives up at the eighth failure in a row (the comment in the code says the sixth), or when the
    server is shut down. *)
Theorem C106_backoff (max : N) (evs : list levent) (x : limits) :
  lsteps evs (limit_new max) = Some x ->
  match lm_phase x with
  | LWait => refusals evs = 0
  | LAccept b => refusals evs <= 7 /\ b = 2 ^ refusals evs
  | LSleep b => 1 <= refusals evs <= 7 /\ b = 2 ^ (refusals evs - 1)
  | LDown => refusals evs = 8 \/ In LShutdown evs
  end.
Proof.
  intros H. pose proof (backed_off_steps evs 0 False _ _ H eq_refl) as B. unfold refusals, backed_off in *.
  destruct (lm_phase x); tauto.
Qed.
Print Assumptions C106_backoff.

(** Eight failures are enough, whatever connections end meanwhile: the seven waits add up to 127 seconds. *)
Theorem C106_gives_up (p : N) (hs : list N) (nx : N) :
  lsteps (concat (map (fun _ => [LRefused; LWake]) (seq 0 7)) ++ [LRefused]) (Limits p (LAccept 1) hs nx) =
    Some (Limits (p + 1) LDown hs nx) /\
  fold_left (fun t i => t + 2 ^ N.of_nat i) (seq 0 7) 0 = 127.
Proof. split; reflexivity. Qed.
Print Assumptions C106_gives_up.

(** Failures to accept do not touch the connections that are open, nor the permits, until the listener gives up. *)
Theorem C106_connections_kept (x x' : limits) (ev : levent) :
  ev = LRefused \/ ev = LWake -> lstep ev x = Some x' ->
  lm_handlers x' = lm_handlers x /\ lm_next x' = lm_next x /\ (lm_phase x' <> LDown -> lm_permits x' = lm_permits x).
Proof.
  destruct x as [p ph hs nx]. intros [->| ->] H; destruct ph as [|b|b|]; try done; cbn in H.
  - destruct (64 <? b); by injection H as <-.
  - by injection H as <-.
Qed.
Print Assumptions C106_connections_kept.

Example C106_case :
  option_map (fun x => (lm_phase x, lm_handlers x))
    (lsteps [LAcquire; LAccepted; LAcquire; LRefused; LWake; LRefused; LWake; LRefused] (limit_new 3)) = Some (LSleep 4, [0]) /\
  refusals [LAcquire; LAccepted; LAcquire; LRefused; LWake; LRefused; LWake; LRefused] = 3.
Proof. done. Qed.
