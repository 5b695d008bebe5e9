(** What happens to a server from which the placement driver hears nothing (C105). *)
From Verif Require Import BytesFacts SpecPd NodeFacts PropPd.
Import ListNotations.
Local Open Scope nat_scope.

(** The time at which the driver last heard from server [sid] of group [gid]. *)
Definition last_beat (p : pd) (gid sid t : N) : Prop :=
  exists g s, In g (pd_groups p) /\ In s (gr_servers g) /\ gr_id g = gid /\ sv_id s = sid /\ sv_beat s = t.

Lemma update_first_in {A} (c : A -> bool) (f : A -> A) l x :
  In x l -> In x (update_first c f l) \/ c x = true /\ In (f x) (update_first c f l).
Proof.
  induction l as [|y l IH]; [done|]. intros [->|I]; cbn.
  - destruct (c x) eqn:C; cbn; tauto.
  - destruct (c y) eqn:C; cbn; [tauto|]. destruct (IH I) as [H|[H H']]; tauto.
Qed.

Lemma Forall2_nth_inv {A B} (R : A -> B -> Prop) l l' : Forall2 R l l' ->
  length l = length l' /\ forall i x y, nth_error l i = Some x -> nth_error l' i = Some y -> R x y.
Proof.
  induction 1 as [|x y l l' H F [L IH]]; [split; [done|by intros []]|]. cbn. split; [by rewrite L|].
  intros [|i] a b; cbn; [by intros [= <-] [= <-]|]. apply IH.
Qed.

Lemma last_beat_beat now a b p gid sid t : a <> gid \/ b <> sid ->
  last_beat p gid sid t -> last_beat (fst (heartbeat_server now a b p)) gid sid t.
Proof.
  intros NE (g & s & Ig & Is & Eg & Es & Et). unfold heartbeat_server.
  destruct (find _ (pd_groups p)); [|by exists g, s]. destruct (find _ _); [|by exists g, s]. cbn [fst].
  set (f := fun g0 : group => with_servers _ g0).
  destruct (update_first_in (fun g => gr_id g =? a)%N f _ g Ig) as [H|[C H]]; [by exists g, s|].
  exists (f g). cbn. destruct (update_first_in (fun s => sv_id s =? b)%N (with_beat now) _ s Is) as [K|[D K]].
  - exists s. done.
  - exfalso. lia.
Qed.
Lemma last_beat_init now a sa fa p gid sid t :
  last_beat p gid sid t -> last_beat (fst (server_init now a sa fa p)) gid sid t.
Proof.
  intros (g & s & Ig & Is & Eg & Es & Et). unfold server_init.
  destruct (find _ (pd_groups p)); [|by exists g, s]. cbn [fst].
  destruct (update_first_in (fun g => gr_id g =? a)%N (fun g => fst (group_join now sa fa g)) _ g Ig) as [H|[C H]];
    [by exists g, s|].
  exists (fst (group_join now sa fa g)), s. cbn [pd_groups]. split; [done|]. split; [|done]. cbn. apply in_or_app. by left.
Qed.
Lemma last_beat_check now p gid sid t : pd_ok p ->
  last_beat p gid sid t -> last_beat (survival_check now p) gid sid t.
Proof.
  intros P (g & s & Ig & Is & Eg & Es & Et).
  assert (O : one_leader g) by (apply (po_groups p P g Ig)).
  destruct (check_checked now g O) as (E1 & _ & F & _).
  apply In_nth_error in Is as [i Is]. destruct (Forall2_nth_inv _ _ _ F) as [L N].
  assert (i < length (gr_servers g)) by (apply nth_error_Some; congruence).
  destruct (nth_error (gr_servers (check_group now g)) i) as [s'|] eqn:Es'.
  - destruct (N i s' s Es' Is) as (A & B & _). exists (check_group now g), s'. cbn. split; [by apply in_map|].
    split; [by eapply nth_error_In|]. repeat split; congruence.
  - exfalso. apply nth_error_None in Es'. lia.
Qed.

(** The server has stopped sending heartbeats, or never learned which server it is. *)
Definition mute (n : node) : Prop := nd_beats n = false \/ nd_latest n = status_default.

Lemma silent_step ev c c' i n :
  cstep ev c = Some c' -> nth_error (cl_nodes c) i = Some n -> nd_beats n = false -> nth_error (cl_nodes c') i = Some n.
Proof.
  intros H E B.
  destruct c as [p l]. cbn [cl_nodes] in *. destruct ev as [|u gid sa fa snap cmd|u j|j snap cmd|j|u]; cbn [cstep] in H.
  - by injection H as <-.
  - destruct (server_init u gid sa fa p) as [p' [st|]]; injection H as <-; cbn [cl_nodes]; [|done].
    rewrite nth_error_app1; [done|]. apply nth_error_Some. congruence.
  - destruct (nth_error l j) as [m|] eqn:Ej; [|done]. unfold node_beat in H. destruct (nd_beats m) eqn:NB; [|done].
    destruct (nd_wait m); [done|]. destruct (server_heartbeat u (nd_latest m) p) as [p' o]. injection H as <-. cbn.
    rewrite nth_replace. destruct (Nat.eqb_spec i j) as [Q|Q]; [|done]. subst j. congruence.
  - destruct (at_node j _ l) as [l'|] eqn:A; [|done]. injection H as <-. cbn.
    apply at_node_spec in A as (m & m' & Ej & F & ->).
    rewrite nth_replace. destruct (Nat.eqb_spec i j) as [Q|Q]; [|done]. subst j.
    unfold node_apply in F. destruct (nd_beats m) eqn:NB; [|done]. congruence.
  - destruct (at_node j _ l) as [l'|] eqn:A; [|done]. injection H as <-. cbn.
    apply at_node_spec in A as (m & m' & Ej & F & ->).
    rewrite nth_replace. destruct (Nat.eqb_spec i j) as [Q|Q]; [|done]. subst j.
    unfold node_lost in F. destruct (nd_beats m) eqn:NB; [|done]. congruence.
  - by injection H as <-.
Qed.
Lemma mute_step ev c c' i n t :
  cluster_ok c -> cstep ev c = Some c' -> nth_error (cl_nodes c) i = Some n -> mute n ->
  last_beat (cl_pd c) (st_group (nd_given n)) (st_server (nd_given n)) t ->
  exists n', nth_error (cl_nodes c') i = Some n' /\ mute n' /\ nd_given n' = nd_given n /\
    (nd_beats n = false -> n' = n) /\
    last_beat (cl_pd c') (st_group (nd_given n)) (st_server (nd_given n)) t.
Proof.
  intros O H E M LB.
  assert (X : exists n', nth_error (cl_nodes c') i = Some n' /\ mute n' /\ nd_given n' = nd_given n /\
    (nd_beats n = false -> n' = n)).
  { destruct (decide (nd_beats n = false)) as [B|B].
    - exists n. split; [by apply (silent_step ev c)|]. split; [by left|done].
    - destruct M as [M|L]; [done|].
      destruct (default_step ev c c' i n O H E L) as (n' & E' & L' & G & _). exists n'. split; [done|].
      split; [by right|]. done. }
  destruct X as (n' & E' & M' & G & K). exists n'. split; [done|]. split; [done|]. split; [done|]. split; [done|].
  clear E' M' G K n'. pose proof O as [P N D]. destruct c as [p l]. cbn [cl_pd cl_nodes] in *.
  destruct ev as [|u gid sa fa snap cmd|u j|j snap cmd|j|u]; cbn [cstep] in H.
  - injection H as <-. destruct LB as (g & s & Ig & R). exists g, s. cbn. split; [apply in_or_app; by left|done].
  - pose proof (last_beat_init u gid sa fa p _ _ _ LB) as Q. destruct (server_init u gid sa fa p) as [p' [st|]];
      by injection H as <-.
  - destruct (nth_error l j) as [m|] eqn:Ej; [|done]. unfold node_beat in H. destruct (nd_beats m) eqn:NB; [|done].
    destruct (nd_wait m); [done|]. pose proof (server_heartbeat_fst u (nd_latest m) p) as F.
    destruct (server_heartbeat u (nd_latest m) p) as [p' o]. injection H as <-. cbn in F |- *. subst p'.
    apply last_beat_beat; [|done].
    destruct (N n (nth_error_In _ _ E)) as [G1 _ _ _].
    destruct (N m (nth_error_In _ _ Ej)) as [_ _ [Z|[[K1 K2] _]] _].
    + left. rewrite Z. cbn. lia.
    + destruct (Nat.eq_dec i j) as [Q|Q].
      * subst j. rewrite E in Ej. injection Ej as <-. destruct M as [M|M]; [congruence|]. left. rewrite M. cbn. lia.
      * destruct (decide (st_group (nd_latest m) = st_group (nd_given n))) as [A|A]; [right|by left]. intros B. apply Q.
        apply (NoDup_nth_error (map (fun n => (st_group (nd_given n), st_server (nd_given n))) l)); [done| |].
        { rewrite map_length. apply nth_error_Some. congruence. }
        rewrite !nth_error_map, E, Ej. cbn. congruence.
  - destruct (at_node j _ l); [|done]. by injection H as <-.
  - destruct (at_node j _ l); [|done]. by injection H as <-.
  - injection H as <-. by apply last_beat_check.
Qed.
Lemma mute_steps evs : forall c c' i n t,
  cluster_ok c -> csteps evs c = Some c' -> nth_error (cl_nodes c) i = Some n -> mute n ->
  last_beat (cl_pd c) (st_group (nd_given n)) (st_server (nd_given n)) t ->
  exists n', nth_error (cl_nodes c') i = Some n' /\ mute n' /\ nd_given n' = nd_given n /\
    (nd_beats n = false -> n' = n) /\
    last_beat (cl_pd c') (st_group (nd_given n)) (st_server (nd_given n)) t.
Proof.
  induction evs as [|ev evs IH]; intros c c' i n t O H E M LB; cbn in H; [injection H as <-; by exists n|].
  destruct (cstep ev c) as [c1|] eqn:S; [|done].
  destruct (mute_step ev c c1 i n t O S E M LB) as (n1 & E1 & M1 & G1 & K1 & LB1). rewrite <- G1 in LB1.
  destruct (IH c1 c' i n1 t (cstep_ok ev c c1 S O) H E1 M1 LB1) as (n2 & E2 & M2 & G2 & K2 & LB2).
  exists n2. rewrite G1 in LB2. split; [done|]. split; [done|]. split; [congruence|]. split; [|done].
  intros B. specialize (K1 B). subst n1. by apply K2.
Qed.

(** ** C105 *)

(** A server whose heartbeat task has ended (an error on its connection to the driver) is never heard of again,
    and never changes its mind: the task is not restarted. *)
Theorem C105_silent_for_good (evs evs' : list cevent) (c c' : cluster) (i : nat) (n : node) :
  csteps evs cl_empty = Some c -> nth_error (cl_nodes c) i = Some n -> nd_beats n = false ->
  csteps evs' c = Some c' ->
  nth_error (cl_nodes c') i = Some n /\
  forall t, last_beat (cl_pd c) (st_group (nd_given n)) (st_server (nd_given n)) t ->
    last_beat (cl_pd c') (st_group (nd_given n)) (st_server (nd_given n)) t.
Proof.
  intros H E B H'. assert (O : cluster_ok c) by (apply reached_ok; by exists evs).
  assert (K : known (cl_pd c) (st_group (nd_given n), st_server (nd_given n)))
    by (apply (co_nodes c O n (nth_error_In _ _ E))).
  destruct K as (v & g & s & Ig & Is & Eg & Es & _). cbn in Eg, Es.
  split.
  - destruct (mute_steps evs' c c' i n (sv_beat s) O H' E (or_introl B)) as (n' & E' & _ & _ & K & _).
    { by exists g, s. } by rewrite (K B) in E'.
  - intros t LB. by destruct (mute_steps evs' c c' i n t O H' E (or_introl B) LB) as (n' & _ & _ & _ & _ & Q).
Qed.
Print Assumptions C105_silent_for_good.
(** The loss of the connection is what ends the task. *)
Theorem C105_lost (c c' : cluster) (i : nat) :
  cstep (SLost i) c = Some c' ->
  cl_pd c' = cl_pd c /\
  exists n n', nth_error (cl_nodes c) i = Some n /\ nth_error (cl_nodes c') i = Some n' /\
    nd_beats n = true /\ nd_beats n' = false /\ nd_latest n' = nd_latest n /\ nd_given n' = nd_given n.
Proof.
  destruct c as [p l]. cbn [cstep]. destruct (at_node i _ l) as [l'|] eqn:A; [|done]. intros [= <-].
  apply at_node_spec in A as (m & m' & E & F & ->). unfold node_lost in F. destruct (nd_beats m) eqn:B; [|done].
  injection F as <-. split; [done|]. cbn [cl_nodes]. rewrite nth_replace, Nat.eqb_refl.
  assert (L : i < length l) by (apply nth_error_Some; congruence). rewrite (proj2 (Nat.ltb_lt _ _) L).
  eexists m, _. split; [done|]. split; [reflexivity|]. done.
Qed.
Print Assumptions C105_lost.

(** The driver takes the leader's role from a server it has not heard of for more than three seconds, and
    does not give it to such a server. *)
Theorem C105_deposed (evs : list cevent) (c : cluster) (now gid sid t : N) (v : status) :
  csteps evs cl_empty = Some c -> last_beat (cl_pd c) gid sid t -> (t + 3000 < now)%N ->
  pd_view (survival_check now (cl_pd c)) gid sid v -> st_role v = Follower.
Proof.
  intros H LB T (g' & s' & Ig' & Is' & Eg & Es & ->). cbn.
  assert (P : pd_ok (cl_pd c)) by (apply reached_pd_ok; by exists evs).
  pose proof (survival_check_ok now (cl_pd c) P) as P'.
  pose proof (last_beat_check now (cl_pd c) gid sid t P LB) as (g2 & s2 & I2 & J2 & A2 & B2 & C2).
  pose proof (find_id gr_id _ gid g' (po_ids _ P') Ig' Eg) as F. rewrite (find_id gr_id _ gid g2 (po_ids _ P') I2 A2) in F.
  injection F as ->.
  pose proof (find_id sv_id _ sid s' (go_ids _ (po_groups _ P' g' Ig')) Is' Es) as F.
  rewrite (find_id sv_id _ sid s2 (go_ids _ (po_groups _ P' g' Ig')) J2 B2) in F. injection F as ->.
  cbn in Ig'. apply in_map_iff in Ig' as (g & <- & Ig).
  pose proof (go_one _ (po_groups _ P g Ig)) as O.
  destruct (check_checked now g O) as (_ & _ & F & LA & LD).
  destruct (Forall2_nth_inv _ _ _ F) as [L N].
  destruct (sv_role s') eqn:R; [|done]. exfalso.
  apply In_nth_error in Is' as [i Is'].
  destruct (nth_error (gr_servers g) i) as [s|] eqn:Ei.
  2: { apply nth_error_None in Ei. assert (i < length (gr_servers (check_group now g))) by (apply nth_error_Some; congruence). lia. }
  destruct (N i s' s Is' Ei) as (Q1 & Q2 & _).
  destruct (check_cases now g O) as [[A E]|[A E]].
  - rewrite E in Is'. assert (s' = s) by congruence. subst s'.
    destruct A as (u & Iu & Ru & Au). apply In_nth_error in Iu as [j Iu].
    assert (i = j) by (by apply (O i j s u)). subst j. assert (u = s) by congruence. subst u. unfold alive in Au. lia.
  - destruct (LD A) as [D1 D2].
    pose proof (pick_spec now (gr_servers (demoted now g))) as B. rewrite E in Is'. unfold elect in Is'.
    destruct (demoted_spec now g O) as (_ & _ & _ & _ & DF & _).
    destruct (pick now 0 None (gr_servers (demoted now g))) as [[k u]|] eqn:PK.
    + cbn in Is'. rewrite nth_update_at in Is'. destruct (Nat.eqb_spec i k) as [Q|Q].
      * subst k. destruct B as (Bn & Bc & _). rewrite Bn in Is'. injection Is' as <-. cbn in C2.
        destruct Bc as [_ Bc]. unfold alive in Bc. lia.
      * specialize (DF s' (nth_error_In _ _ Is')). congruence.
    + specialize (DF s' (nth_error_In _ _ Is')). congruence.
Qed.
Print Assumptions C105_deposed.

(** In particular the first server of a group, which starts as its leader: although it sends heartbeats all the time, the
    driver never hears from it, because it never learns its own id (C60).  Any check more than three seconds after it
    has joined takes its role away, and it goes on believing to be the leader. *)
Theorem C105_first_leader_deposed (evs evs' : list cevent) (c c' c'' : cluster) now later gid sa fa snap cmd st v :
  csteps evs cl_empty = Some c -> cstep (SJoin now gid sa fa snap cmd) c = Some c' ->
  snd (server_init now gid sa fa (cl_pd c)) = Some st -> st_role st = Leader ->
  csteps evs' c' = Some c'' -> (now + 3000 < later)%N ->
  pd_view (survival_check later (cl_pd c'')) (st_group st) (st_server st) v ->
  st_role v = Follower /\
  exists n, nth_error (cl_nodes c'') (length (cl_nodes c)) = Some n /\ nd_given n = st /\ believes n.
Proof.
  intros H J I R H' T V.
  destruct (C60_first_leader_never_learns evs evs' c c' c'' now gid sa fa snap cmd st H J I R H') as (n & E & G & L & B).
  split; [|by exists n].
  assert (O : cluster_ok c) by (apply reached_ok; by exists evs). pose proof (cstep_ok _ c c' J O) as O'.
  assert (H2 : csteps (evs ++ [SJoin now gid sa fa snap cmd]) cl_empty = Some c').
  { clear -H J. revert H. generalize cl_empty. induction evs as [|ev evs IH]; intros x H; cbn in H |- *.
    - injection H as ->. by rewrite J.
    - destruct (cstep ev x); [|done]. by apply IH. }
  assert (H3 : csteps ((evs ++ [SJoin now gid sa fa snap cmd]) ++ evs') cl_empty = Some c'').
  { clear -H2 H'. revert H2. generalize cl_empty. generalize (evs ++ [SJoin now gid sa fa snap cmd]). intros l.
    induction l as [|ev l IH]; intros x H; cbn in H |- *; [by injection H as ->|]. destruct (cstep ev x); [|done]. by apply IH. }
  eapply (C105_deposed _ c'' later (st_group st) (st_server st) now v H3); [|done|done].
  destruct (C60_first_leader_never_learns evs [] c c' c' now gid sa fa snap cmd st H J I R eq_refl) as (m & Em & Gm & Lm & _).
  destruct (mute_steps evs' c' c'' _ m now O' H' Em (or_intror Lm)) as (n' & _ & _ & _ & _ & LB); [|by rewrite Gm in LB].
  rewrite Gm. destruct c as [p l]. cbn [cstep cl_pd] in J, I.
  assert (Q : last_beat (fst (server_init now gid sa fa p)) (st_group st) (st_server st) now).
  { unfold server_init in I |- *. destruct (find (fun g => gr_id g =? gid)%N (pd_groups p)) as [g|] eqn:F; [|done].
    cbn [snd fst] in I |- *. injection I as <-.
    pose proof (update_first_spec (fun g => gr_id g =? gid)%N (fun g => fst (group_join now sa fa g)) (pd_groups p)) as U.
    rewrite F in U. destruct U as (_ & k & Nk & U). eexists _, _. cbn [pd_groups]. rewrite U. split.
    { apply (nth_error_In _ k). by rewrite nth_update_at, Nat.eqb_refl, Nk. }
    split; [cbn; apply in_or_app; right; by left|]. done. }
  destruct (server_init now gid sa fa p) as [p' [st'|]]; [|done]. injection J as <-. exact Q.
Qed.
Print Assumptions C105_first_leader_deposed.

(** The driver hears of server 2 of group 1 at 2000, then its connection breaks; of server 1 it hears nothing at all. *)
Definition c105_evs : list cevent :=
  [SCreate; SJoin 1000 1 80 90 true true; SJoin 1000 1 81 91 true true;
   SBeat 2000 0; SApply 0 true true; SBeat 2000 1; SApply 1 true true; SLost 1].
Example C105_case :
  exists c, csteps c105_evs cl_empty = Some c /\
    map nd_beats (cl_nodes c) = [true; false] /\
    map (fun g => map sv_beat (gr_servers g)) (pd_groups (cl_pd c)) = [[1000; 2000]%N] /\
    map (fun g => map sv_role (gr_servers g)) (pd_groups (cl_pd c)) = [[Leader; Follower]] /\
    map (fun g => map sv_role (gr_servers g)) (pd_groups (survival_check 4001 (cl_pd c))) = [[Follower; Leader]] /\
    map (fun g => map sv_role (gr_servers g)) (pd_groups (survival_check 5001 (survival_check 4001 (cl_pd c)))) =
      [[Follower; Follower]].
Proof. eexists. split; [vm_compute; reflexivity|]. vm_compute. tauto. Qed.
