(** The placement driver and its servers: C57 to C61. *)
From Verif Require Import BytesFacts SpecPd NodeFacts.
Local Open Scope nat_scope.

(** ** C57: at most one leader per group *)
Theorem C57_one_leader (evs : list cevent) (c : cluster) (g : group) :
  csteps evs cl_empty = Some c -> In g (pd_groups (cl_pd c)) ->
  one_leader g /\ advertised g /\ advertises_member g.
Proof.
  intros H I. assert (R : reached c) by (by exists evs). destruct (po_groups _ (reached_pd_ok c R) g I). done.
Qed.
Print Assumptions C57_one_leader.

(** Two groups, a failover, a leader that comes back, and a group whose servers are all dead. *)
Definition c57_evs : list cevent :=
  [SCreate; SCreate; SJoin 1000 1 80 90 true true; SJoin 1500 1 81 91 true true; SJoin 1600 1 82 92 true true;
   SJoin 1000 2 70 71 true true; SBeat 3900 1; SApply 1 true true; SBeat 4000 2; SApply 2 true true; SCheck 4001;
   SBeat 4100 1; SApply 1 true true; SBeat 4200 2; SApply 2 true true].
Definition roles (c : cluster) : list (N * option leader_info * list (N * role)) :=
  map (fun g => (gr_id g, gr_leader g, map (fun s => (sv_id s, sv_role s)) (gr_servers g))) (pd_groups (cl_pd c)).
Example C57_case :
  option_map roles (csteps c57_evs cl_empty) =
    Some [(1%N, Some (LeaderInfo 2 81 91), [(1%N, Follower); (2%N, Leader); (3%N, Follower)]);
          (2%N, Some (LeaderInfo 1 70 71), [(1%N, Follower)])].
Proof. vm_compute. reflexivity. Qed.

(** ** C58: ids *)
(** The groups are exactly those that were created, numbered from one. *)
Theorem C58_groups (evs : list cevent) (c : cluster) :
  csteps evs cl_empty = Some c -> map gr_id (pd_groups (cl_pd c)) = map N.of_nat (seq 1 (creations evs)).
Proof. intros H. by apply (groups_steps evs cl_empty c 0). Qed.
Print Assumptions C58_groups.
Theorem C58_group_ids (evs : list cevent) (c : cluster) :
  csteps evs cl_empty = Some c -> List.NoDup (map gr_id (pd_groups (cl_pd c))).
Proof. intros H. apply (po_ids _ (reached_pd_ok c (ex_intro _ evs H))). Qed.
Print Assumptions C58_group_ids.
Theorem C58_server_ids (evs : list cevent) (c : cluster) (g : group) :
  csteps evs cl_empty = Some c -> In g (pd_groups (cl_pd c)) -> List.NoDup (map sv_id (gr_servers g)).
Proof. intros H I. apply (po_groups _ (reached_pd_ok c (ex_intro _ evs H)) g I). Qed.
Print Assumptions C58_server_ids.
(** No pair of group and server id is given to two servers in the course of a history, and none is the pair
    of zeros that a server starts with. *)
Theorem C58_never_reused (evs : list cevent) (c : cluster) :
  csteps evs cl_empty = Some c -> List.NoDup (handed_out evs cl_empty).
Proof. intros H. by apply (handed_out_new evs cl_empty c pd_empty_ok). Qed.
Print Assumptions C58_never_reused.
Example C58_case : handed_out c57_evs cl_empty = [(1, 1); (1, 2); (1, 3); (2, 1)]%N /\ creations c57_evs = 2.
Proof. vm_compute. done. Qed.

(** ** C59: failover *)
Theorem C59_check (now : N) (p : pd) :
  (forall g, In g (pd_groups p) -> one_leader g) ->
  pd_latest (survival_check now p) = pd_latest p /\
  Forall2 (checked now) (pd_groups p) (pd_groups (survival_check now p)).
Proof.
  intros O. split; [done|]. cbn. induction (pd_groups p) as [|g l IH]; cbn; constructor.
  - apply check_checked. apply O. by left.
  - apply IH. intros h I. apply O. by right.
Qed.
Print Assumptions C59_check.
(** In particular, for the states the driver gets into. *)
Theorem C59_failover (evs : list cevent) (c : cluster) (now : N) :
  csteps evs cl_empty = Some c ->
  Forall2 (checked now) (pd_groups (cl_pd c)) (pd_groups (survival_check now (cl_pd c))).
Proof.
  intros H. apply C59_check. intros g I. by apply (C57_one_leader evs c g).
Qed.
Print Assumptions C59_failover.
(** A group with a dead leader, a dead follower that joined first, and two live followers. *)
Definition c59_g : group :=
  Group 1 4 [Server 1 1000 Follower 80 90 900; Server 2 1000 Leader 81 91 950;
             Server 3 4500 Follower 82 92 990; Server 4 4600 Follower 83 93 980] (Some (LeaderInfo 2 81 91)).
Example C59_case :
  one_leader c59_g /\ ~ leader_alive 4700 c59_g /\ oldest 4700 c59_g 3 (Server 4 4600 Follower 83 93 980) /\
  leader_alive 4000 c59_g /\
  check_group 4700 c59_g =
    Group 1 4 [Server 1 1000 Follower 80 90 900; Server 2 1000 Follower 81 91 950;
               Server 3 4500 Follower 82 92 990; Server 4 4600 Leader 83 93 980] (Some (LeaderInfo 4 83 93)).
Proof.
  split; [|split; [|split; [|split]]].
  - intros i j s t E1 E2 R1 R2. do 4 (destruct i as [|i]; [do 4 (destruct j as [|j]; [cbn in *; injection E1 as <-; injection E2 as <-; done|]); by destruct j|]).
    by destruct i.
  - intros (s & I & R & A). cbn in I. unfold alive in A. destruct I as [<-|[<-|[<-|[<-|[]]]]]; cbn in *; done || lia.
  - split; [done|]. split; [done|]. split; [unfold alive; cbn; lia|].
    intros j t E R A. unfold alive, before in *. do 4 (destruct j as [|j]; [cbn in E; injection E as <-; cbn in *; done || lia|]). by destruct j.
  - exists (Server 2 1000 Leader 81 91 950). split; [cbn; tauto|]. split; [done|]. unfold alive. cbn. lia.
  - vm_compute. reflexivity.
Qed.

(** ** C60: split brain *)
(** A server that was made leader when it joined keeps the state it had before it joined, for ever: it never
    learns its id, its heartbeats are those of an unknown server, and whatever happens to it in the driver
    it goes on believing to be leader. *)
Theorem C60_first_leader_never_learns (evs evs' : list cevent) (c c' c'' : cluster) now gid sa fa snap cmd st :
  csteps evs cl_empty = Some c -> cstep (SJoin now gid sa fa snap cmd) c = Some c' ->
  snd (server_init now gid sa fa (cl_pd c)) = Some st -> st_role st = Leader ->
  csteps evs' c' = Some c'' ->
  exists n, nth_error (cl_nodes c'') (length (cl_nodes c)) = Some n /\ nd_given n = st /\ nd_latest n = status_default /\ believes n.
Proof.
  intros H J I R H'. assert (O : cluster_ok c) by (apply reached_ok; by exists evs).
  pose proof (cstep_ok _ c c' J O) as O'.
  assert (X : nth_error (cl_nodes c') (length (cl_nodes c)) = Some (node_start snap cmd st)).
  { destruct c as [p l]. cbn [cstep cl_pd cl_nodes] in *. destruct (server_init now gid sa fa p) as [p' o]. cbn in I. subst o.
    injection J as <-. cbn. rewrite nth_error_app2 by lia. by rewrite Nat.sub_diag. }
  assert (Y : node_start snap cmd st = Node st status_default None false None true).
  { unfold node_start, update_status. rewrite R. cbn. done. }
  rewrite Y in X. destruct (default_steps evs' c' c'' _ _ O' H' X eq_refl) as (n & E & L & G).
  exists n. split; [done|]. split; [done|]. split; [done|]. unfold believes. by rewrite L.
Qed.
Print Assumptions C60_first_leader_never_learns.

(** So the claim is false: with all servers of a group sending heartbeats, and every answer processed, two
    servers of the group believe to be leader; the first of them always will. *)
Definition c60_evs : list cevent :=
  [SCreate; SJoin 1000 1 80 90 true true; SJoin 1000 1 81 91 true true;
   SBeat 2000 0; SApply 0 true true; SBeat 2000 1; SApply 1 true true;
   SBeat 3000 0; SApply 0 true true; SBeat 3000 1; SApply 1 true true;
   SBeat 4000 0; SApply 0 true true; SBeat 4000 1; SApply 1 true true; SCheck 4001;
   SBeat 5000 0; SApply 0 true true; SBeat 5000 1; SApply 1 true true].
Theorem C60_refuted :
  exists c n0 n1, csteps c60_evs cl_empty = Some c /\ cl_nodes c = [n0; n1] /\
    nd_beats n0 = true /\ nd_beats n1 = true /\ nd_wait n0 = None /\ nd_wait n1 = None /\
    st_group (nd_given n0) = st_group (nd_given n1) /\ st_server (nd_given n0) <> st_server (nd_given n1) /\
    believes n0 /\ believes n1 /\ pd_view (cl_pd c) 1 1 (Status 1 1 Follower (Some (LeaderInfo 2 81 91))) /\
    forall evs' c', csteps evs' c = Some c' -> exists n, nth_error (cl_nodes c') 0 = Some n /\ believes n.
Proof.
  destruct (csteps c60_evs cl_empty) as [c|] eqn:E; [|vm_compute in E; discriminate E].
  assert (O : cluster_ok c) by (apply reached_ok; by exists c60_evs).
  vm_compute in E. injection E as <-. eexists _, _, _. split; [reflexivity|]. split; [reflexivity|].
  do 4 (split; [reflexivity|]). split; [reflexivity|]. split; [done|]. split; [reflexivity|]. split; [reflexivity|].
  split.
  - eexists _, _. cbn. split; [by left|]. split; [by left|]. done.
  - intros evs' c' H. destruct (default_steps evs' _ c' 0 _ O H eq_refl eq_refl) as (n & En & L & _).
    exists n. split; [done|]. unfold believes. by rewrite L.
Qed.
Print Assumptions C60_refuted.

(** What is true: of the servers that know their id and have nothing more to learn, at most one of a group
    believes to be leader.  Missing from the claim: the servers that were made leader when they joined. *)
Theorem C60_settled_partial (evs : list cevent) (c : cluster) (i j : nat) (n m : node) :
  csteps evs cl_empty = Some c -> nth_error (cl_nodes c) i = Some n -> nth_error (cl_nodes c) j = Some m ->
  knows_id n -> knows_id m -> nd_beats n = true -> nd_beats m = true -> nd_wait n = None -> nd_wait m = None ->
  settled c i -> settled c j -> st_group (nd_given n) = st_group (nd_given m) -> believes n -> believes m -> i = j.
Proof.
  intros H En Em Kn Km Bn Bm Wn Wm Sn Sm G Ln Lm.
  assert (O : cluster_ok c) by (apply reached_ok; by exists evs).
  destruct (no_known _ _ (co_nodes c O n (nth_error_In _ _ En))) as [v V].
  destruct (no_known _ _ (co_nodes c O m (nth_error_In _ _ Em))) as [w W]. cbn [fst snd] in *.
  destruct (settled_leader c i n v O En Kn Bn Wn Sn Ln V) as (li & A1 & A2).
  destruct (settled_leader c j m w O Em Km Bm Wm Sm Lm W) as (lj & B1 & B2).
  assert (L : st_leader v = st_leader w).
  { destruct V as (g & s & Ig & _ & Eg & _ & ->), W as (g' & s' & Ig' & _ & Eg' & _ & ->). cbn.
    pose proof (find_id gr_id _ _ g (po_ids _ (co_pd c O)) Ig Eg) as F.
    rewrite G in F. rewrite (find_id gr_id _ _ g' (po_ids _ (co_pd c O)) Ig' Eg') in F. by injection F as ->. }
  assert (Q : st_server (nd_given n) = st_server (nd_given m)) by congruence.
  pose proof (co_given c O) as ND. rewrite NoDup_nth_error in ND. apply ND.
  - rewrite map_length. apply nth_error_Some. congruence.
  - rewrite !nth_error_map, En, Em. cbn. by rewrite G, Q.
Qed.
Print Assumptions C60_settled_partial.
(** One heartbeat, answered and processed, settles a server, and heartbeats of others do not unsettle it. *)
Theorem C60_heartbeat_settles (evs : list cevent) (c c1 c2 : cluster) (now : N) (i : nat) :
  csteps evs cl_empty = Some c -> cstep (SBeat now i) c = Some c1 -> cstep (SApply i true true) c1 = Some c2 ->
  settled c2 i.
Proof.
  intros H H1 H2. assert (O : cluster_ok c) by (apply reached_ok; by exists evs).
  pose proof (cstep_ok _ _ _ H1 O) as O1. pose proof (cstep_ok _ _ _ H2 O1) as O2.
  assert (V12 : forall g s v, pd_view (cl_pd c) g s v -> pd_view (cl_pd c2) g s v).
  { intros g s v V. destruct c as [p l]. cbn [cstep cl_pd] in *. destruct (nth_error l i) as [n|]; [|done].
    unfold node_beat in H1. destruct (nd_beats n); [|done]. destruct (nd_wait n); [done|].
    pose proof (server_heartbeat_fst now (nd_latest n) p) as F.
    destruct (server_heartbeat now (nd_latest n) p) as [p' o]. injection H1 as <-. cbn [cstep] in H2.
    destruct (at_node i _ _); [|done]. injection H2 as <-. cbn in F |- *. rewrite F. by apply heartbeat_same_view. }
  intros now' n2 c3 c4 n4 E2 H3 H4 E4.
  destruct (nth_error (cl_nodes c) i) as [n|] eqn:E; [|destruct c as [p l]; cbn [cstep cl_nodes] in *; by rewrite E in H1].
  destruct (beat_apply now i true true c c1 c2 n n2 E H1 H2 E2) as (B & W & X).
  destruct (beat_apply now' i true true c2 c3 c4 n2 n4 E2 H3 H4 E4) as (B2 & W2 & X2).
  cbv zeta in X, X2.
  set (m := Node (nd_given n) (nd_latest n) (nd_target n) (nd_rx n) None true) in *.
  destruct (snd (server_heartbeat now (nd_latest n) (cl_pd c))) as [st|] eqn:A.
  - assert (V : pd_view (cl_pd c) (st_group (nd_latest n)) (st_server (nd_latest n)) st) by (by apply (heartbeat_some now)).
    pose proof (view_ids _ _ _ _ V) as [I1 I2].
    assert (G : st_group (nd_latest n2) = st_group (nd_latest n) /\ st_server (nd_latest n2) = st_server (nd_latest n)).
    { pose proof (update_status_spec true true st m) as U. destruct (update_status true true st m) as [u ok]. cbn in X. subst n2.
      destruct U as (_ & _ & _ & [Z|Z] & _); rewrite Z; [by split|]. by split. }
    destruct G as [G1 G2].
    rewrite (heartbeat_answer now' (nd_latest n2) (cl_pd c2) st (co_pd c2 O2)) in X2 by (rewrite G1, G2; by apply V12).
    destruct (decide (nd_latest n2 = st)) as [Q|Q]; [by rewrite X2|].
    rewrite X2. clear X2. unfold update_status in X |- *. cbn [nd_latest nd_given nd_target nd_rx nd_wait nd_beats] in *.
    cbn [m nd_latest] in X.
    destruct (bool_decide (st_role st = Follower)) eqn:F.
    + destruct (decide (st_leader (nd_latest n) = st_leader st)) as [L|L].
      * rewrite (bool_decide_true _ L) in X. cbn [negb andb] in X.
        apply bool_decide_eq_true in F. rewrite (bool_decide_false (st_role st = Leader)) in X by congruence.
        rewrite andb_false_r in X. cbn [fst] in X. subst n2. cbn [nd_latest m].
        rewrite (bool_decide_true _ L). cbn. rewrite (bool_decide_false (st_role st = Leader)) by congruence. by rewrite andb_false_r.
      * rewrite (bool_decide_false _ L) in X. cbn in X. subst n2. by cbn in Q.
    + cbn [andb] in X |- *. apply bool_decide_eq_false in F. assert (R : st_role st = Leader) by (by destruct (st_role st)).
      rewrite (bool_decide_true _ R), andb_true_r in X |- *.
      destruct (bool_decide (st_role (nd_latest n) = Follower)) eqn:Z; cbn in X; subst n2; [by cbn in Q|].
      cbn. by rewrite Z.
  - subst n2. cbn [nd_latest m] in *.
    assert (N : snd (server_heartbeat now' (nd_latest n) (cl_pd c2)) = None); [|by rewrite X2, N].
    destruct (snd (server_heartbeat now' (nd_latest n) (cl_pd c2))) as [st|] eqn:Y; [|done]. exfalso.
    destruct (co_nodes c O n (nth_error_In _ _ E)) as [Hg Hk Hl _]. destruct Hl as [Hl|[[K1 K2] _]].
    + apply heartbeat_some in Y. rewrite Hl in Y. by apply (default_unknown (cl_pd c2) st (co_pd _ O2)).
    + destruct Hk as [v V]. cbn in V. rewrite <- K1, <- K2 in V.
      rewrite (heartbeat_answer now' _ _ v (co_pd _ O2)) in Y by (by apply V12).
      rewrite (heartbeat_answer now _ _ v (co_pd _ O)) in A by done.
      by destruct (decide (nd_latest n = v)).
Qed.
Print Assumptions C60_heartbeat_settles.
Theorem C60_others_stay_settled (evs : list cevent) (c c' : cluster) (ev : cevent) (i j : nat) :
  csteps evs cl_empty = Some c -> settled c i -> i <> j ->
  (exists now, ev = SBeat now j) \/ (exists s k, ev = SApply j s k) \/ ev = SLost j ->
  cstep ev c = Some c' -> settled c' i.
Proof.
  intros H S Ne EV H'. assert (O : cluster_ok c) by (apply reached_ok; by exists evs).
  pose proof (cstep_ok _ _ _ H' O) as O'.
  assert (X : nth_error (cl_nodes c') i = nth_error (cl_nodes c) i /\ forall g s v, pd_view (cl_pd c) g s v -> pd_view (cl_pd c') g s v).
  { clear O O' S. destruct c as [p l]. destruct EV as [[now ->]|[(s & k & ->)| ->]]; cbn [cstep cl_pd cl_nodes] in *.
    - destruct (nth_error l j) as [n|]; [|done].
      unfold node_beat in H'. destruct (nd_beats n); [|done]. destruct (nd_wait n); [done|].
      pose proof (server_heartbeat_fst now (nd_latest n) p) as F.
      destruct (server_heartbeat now (nd_latest n) p) as [p' o]. injection H' as <-. cbn in F |- *. split.
      + rewrite nth_replace. by destruct (Nat.eqb_spec i j).
      + intros g s v V. rewrite F. by apply heartbeat_same_view.
    - destruct (at_node j _ l) as [l'|] eqn:A; [|done]. injection H' as <-. cbn. split; [|done].
      apply at_node_spec in A as (n & n' & _ & _ & ->). rewrite nth_replace. by destruct (Nat.eqb_spec i j).
    - destruct (at_node j _ l) as [l'|] eqn:A; [|done]. injection H' as <-. cbn. split; [|done].
      apply at_node_spec in A as (n & n' & _ & _ & ->). rewrite nth_replace. by destruct (Nat.eqb_spec i j). }
  destruct X as [X V]. intros now' n c3 c4 n4 E H3 H4 E4.
  destruct (beat_apply now' i true true c' c3 c4 n n4 E H3 H4 E4) as (B & W & Y).
  rewrite X in E. rewrite Y. clear Y.
  assert (A : snd (server_heartbeat now' (nd_latest n) (cl_pd c')) = snd (server_heartbeat now' (nd_latest n) (cl_pd c))).
  { destruct (co_nodes c O n (nth_error_In _ _ E)) as [Hg Hk Hl _]. destruct Hl as [Hl|[[K1 K2] _]].
    - rewrite Hl. rewrite !heartbeat_none; [done| |]; intros v; by apply default_unknown; apply co_pd.
    - destruct Hk as [v Vk]. cbn in Vk. rewrite <- K1, <- K2 in Vk.
      rewrite (heartbeat_answer now' _ _ v (co_pd _ O') (V _ _ _ Vk)). by rewrite (heartbeat_answer now' _ _ v (co_pd _ O)). }
  rewrite A. destruct c as [p l]. cbn [cl_pd cl_nodes] in *.
  assert (L0 : i < length l) by (apply nth_error_Some; congruence).
  destruct (server_heartbeat now' (nd_latest n) p) as [p' o] eqn:SH. cbn [snd].
  set (m := Node (nd_given n) (nd_latest n) (nd_target n) (nd_rx n) None true).
  eapply (S now' n _ _ _).
  - exact E.
  - cbn [cstep]. rewrite E. unfold node_beat. rewrite B, W, SH. reflexivity.
  - cbn [cstep]. unfold at_node. rewrite nth_replace, Nat.eqb_refl, (proj2 (Nat.ltb_lt _ _) L0).
    unfold node_apply. cbn [nd_beats nd_wait nd_given nd_latest nd_target nd_rx]. fold m.
    instantiate (1 := Cluster p' (update_at i (fun _ => match o with None => m | Some st => fst (update_status true true st m) end)
                                   (update_at i (fun _ => Node (nd_given n) (nd_latest n) (nd_target n) (nd_rx n) (Some o) true) l))).
    by destruct o.
  - cbn [cl_nodes]. rewrite nth_replace, Nat.eqb_refl, update_at_length, (proj2 (Nat.ltb_lt _ _) L0). reflexivity.
Qed.
Print Assumptions C60_others_stay_settled.
(** After the failover of [c57_evs], the two surviving servers know their ids and are settled, and one of them
    believes to be leader. *)
Definition c60_obs (c : cluster) := map (fun n => (nd_latest n, nd_given n, nd_beats n, nd_wait n)) (cl_nodes c).
Example C60_case :
  exists c n m, csteps c57_evs cl_empty = Some c /\ nth_error (cl_nodes c) 1 = Some n /\ nth_error (cl_nodes c) 2 = Some m /\
    knows_id n /\ knows_id m /\ nd_beats n = true /\ nd_beats m = true /\ nd_wait n = None /\ nd_wait m = None /\
    settled c 1 /\ settled c 2 /\ believes n /\ ~ believes m.
Proof.
  destruct (csteps c57_evs cl_empty) as [c|] eqn:E; [|vm_compute in E; discriminate E].
  assert (S2 : settled c 2).
  { eapply (C60_heartbeat_settles (take 13 c57_evs) _ _ c 4200 2); vm_compute; [reflexivity|reflexivity|]. vm_compute in E. exact E. }
  assert (S1 : settled c 1).
  { assert (exists c0, csteps (take 13 c57_evs) cl_empty = Some c0) as [c0 E0] by (eexists; vm_compute; reflexivity).
    assert (S0 : settled c0 1).
    { eapply (C60_heartbeat_settles (take 11 c57_evs) _ _ c0 4100 1); vm_compute; [reflexivity|reflexivity|]. vm_compute in E0. exact E0. }
    assert (exists c1, cstep (SBeat 4200 2) c0 = Some c1) as [c1 E1].
    { vm_compute in E0. injection E0 as <-. eexists. vm_compute. reflexivity. }
    assert (S1 : settled c1 1).
    { eapply (C60_others_stay_settled (take 13 c57_evs) c0 c1 (SBeat 4200 2) 1 2 E0 S0); [done|by left; eexists|done]. }
    assert (X : csteps (take 14 c57_evs) cl_empty = Some c1).
    { vm_compute in E0. injection E0 as <-. vm_compute in E1. injection E1 as <-. vm_compute. reflexivity. }
    eapply (C60_others_stay_settled (take 14 c57_evs) c1 c (SApply 2 true true) 1 2 X S1); [done|by right; left; eexists _, _|].
    vm_compute in E0. injection E0 as <-. vm_compute in E1. injection E1 as <-. vm_compute in E. exact E. }
  vm_compute in E. injection E as <-. eexists _, _, _. split; [reflexivity|]. split; [reflexivity|]. split; [reflexivity|].
  split; [done|]. split; [done|]. do 4 (split; [reflexivity|]). split; [done|]. split; [done|]. done.
Qed.

(** ** C61: heartbeats *)
(** A server with the follower role sends a heartbeat; other things happen; it processes the answer without
    an error.  Then its state is the driver's view of it at the moment of the answer. *)
Definition touches (i : nat) (ev : cevent) : Prop :=
  match ev with SApply j _ _ | SLost j | SBeat _ j => j = i | _ => False end.
Lemma untouched i evs : forall c c' n, Forall (fun ev => ~ touches i ev) evs -> csteps evs c = Some c' ->
  nth_error (cl_nodes c) i = Some n -> nth_error (cl_nodes c') i = Some n.
Proof.
  induction evs as [|ev evs IH]; intros c c' n F H E; cbn in H; [by injection H as <-|].
  destruct (cstep ev c) as [c1|] eqn:S; [|done]. inversion F as [|? ? T F']; subst. apply (IH c1 c' n F' H). clear IH H F F'.
  destruct c as [p l]. cbn [cl_nodes] in *. destruct ev as [|t gid sa fa snap cmd|t j|j snap cmd|j|t]; cbn [cstep touches] in *.
  - by injection S as <-.
  - destruct (server_init t gid sa fa p) as [p' [st|]]; injection S as <-; [|done]. cbn [cl_nodes].
    rewrite nth_error_app1; [done|]. apply nth_error_Some. congruence.
  - destruct (nth_error l j) as [m|] eqn:Ej; [|done]. destruct (node_beat t p m) as [[q m']|]; [|done]. injection S as <-.
    cbn [cl_nodes]. rewrite nth_replace. destruct (Nat.eqb_spec i j); [|done]. by destruct T.
  - destruct (at_node j _ l) as [l'|] eqn:A; [|done]. injection S as <-. cbn [cl_nodes].
    apply at_node_spec in A as (m & m' & _ & _ & ->). rewrite nth_replace. destruct (Nat.eqb_spec i j); [|done]. by destruct T.
  - destruct (at_node j _ l) as [l'|] eqn:A; [|done]. injection S as <-. cbn [cl_nodes].
    apply at_node_spec in A as (m & m' & _ & _ & ->). rewrite nth_replace. destruct (Nat.eqb_spec i j); [|done]. by destruct T.
  - by injection S as <-.
Qed.
Theorem C61_converges (evs mid : list cevent) (c c1 c2 c3 : cluster) (now : N) (i : nat) (n n3 : node) :
  csteps evs cl_empty = Some c -> nth_error (cl_nodes c) i = Some n -> st_role (nd_latest n) = Follower ->
  cstep (SBeat now i) c = Some c1 -> csteps mid c1 = Some c2 -> Forall (fun ev => ~ touches i ev) mid ->
  cstep (SApply i true true) c2 = Some c3 -> nth_error (cl_nodes c3) i = Some n3 ->
  pd_view (cl_pd c1) (st_group (nd_given n)) (st_server (nd_given n)) (nd_latest n3).
Proof.
  intros H E R H1 HM F H3 E3. assert (O : cluster_ok c) by (apply reached_ok; by exists evs).
  destruct (co_nodes c O n (nth_error_In _ _ E)) as [Hg [v V] Hl _]. cbn [fst snd] in V.
  destruct Hl as [Hl|[[K1 K2] _]]; [rewrite Hl in R; discriminate R|].
  destruct c as [p l]. cbn [cl_pd cl_nodes cstep] in *. rewrite E in H1. unfold node_beat in H1.
  destruct (nd_beats n); [|done]. destruct (nd_wait n) eqn:W; [done|].
  assert (A : snd (server_heartbeat now (nd_latest n) p) = if decide (nd_latest n = v) then None else Some v).
  { apply heartbeat_answer; [apply (co_pd _ O)|by rewrite K1, K2]. }
  pose proof (server_heartbeat_fst now (nd_latest n) p) as FP.
  destruct (server_heartbeat now (nd_latest n) p) as [p' o]. injection H1 as <-. cbn [cl_pd fst snd] in *.
  assert (L0 : i < length l) by (apply nth_error_Some; congruence).
  assert (V' : pd_view p' (st_group (nd_given n)) (st_server (nd_given n)) v) by (rewrite FP; by apply heartbeat_same_view).
  enough (X : nd_latest n3 = v) by (by rewrite X).
  set (b := Node (nd_given n) (nd_latest n) (nd_target n) (nd_rx n) (Some o) true) in *.
  assert (E2 : nth_error (cl_nodes c2) i = Some b).
  { apply (untouched i mid _ c2 b F HM). cbn [cl_nodes]. by rewrite nth_replace, Nat.eqb_refl, (proj2 (Nat.ltb_lt _ _) L0). }
  destruct c2 as [p2 l2]. cbn [cstep cl_nodes] in *. destruct (at_node i _ l2) as [l3|] eqn:AN; [|done]. injection H3 as <-.
  apply at_node_spec in AN as (b' & m & Eb & Hm & ->). rewrite E2 in Eb. injection Eb as <-. cbn [cl_nodes] in E3.
  rewrite nth_replace, Nat.eqb_refl in E3. destruct (Nat.ltb i (length l2)); [|done]. injection E3 as <-.
  unfold node_apply in Hm. cbn in Hm. subst o. destruct (decide (nd_latest n = v)) as [Q|Q].
  - injection Hm as <-. by cbn.
  - pose proof (update_status_spec true true v (Node (nd_given n) (nd_latest n) (nd_target n) (nd_rx n) None true)) as U.
    destruct (update_status true true v _) as [u ok]. injection Hm as <-. cbn in U |- *.
    destruct U as (_ & _ & _ & _ & U1 & U2). destruct (view_ids _ _ _ _ V) as [I1 I2].
    apply U2; [by apply U1|done|congruence|congruence].
Qed.
Print Assumptions C61_converges.

(** The answer to a heartbeat is nothing exactly when the state reported is the driver's view. *)
Theorem C61_unchanged_is_silent (evs : list cevent) (c : cluster) (now : N) (data v : status) :
  csteps evs cl_empty = Some c -> pd_view (cl_pd c) (st_group data) (st_server data) v ->
  snd (server_heartbeat now data (cl_pd c)) = (if decide (data = v) then None else Some v) /\
  pd_view (fst (server_heartbeat now data (cl_pd c))) (st_group data) (st_server data) v.
Proof.
  intros H V. split; [apply heartbeat_answer; [|done]; apply reached_pd_ok; by exists evs|].
  rewrite server_heartbeat_fst. by apply heartbeat_same_view.
Qed.
Print Assumptions C61_unchanged_is_silent.

(** When the transfer of the data of the new leader cannot be started, a follower keeps its old state; the next
    heartbeat will be answered in the same way. *)
Theorem C61_failed_update (n : node) (st : status) (snap cmd : bool) :
  st_role st = Follower -> st_leader st <> st_leader (nd_latest n) -> snap && cmd = false ->
  snd (update_status snap cmd st n) = false /\ nd_latest (fst (update_status snap cmd st n)) = nd_latest n /\
  nd_target (fst (update_status snap cmd st n)) = st_leader st.
Proof.
  intros R L SC. unfold update_status. rewrite (bool_decide_true _ R), (bool_decide_false (st_leader (nd_latest n) = st_leader st)) by congruence.
  cbn. by rewrite SC.
Qed.
Print Assumptions C61_failed_update.

(** The statement cannot be extended to servers with the leader role: a leader that is declared dead while no
    follower is alive ignores the answer to its next heartbeat, and every later one. *)
Definition c61_evs : list cevent := c57_evs ++ [SLost 2; SCheck 9000; SBeat 9100 1; SApply 1 true true].
Theorem C61_demoted_leader_refuted :
  exists c n, csteps c61_evs cl_empty = Some c /\ nth_error (cl_nodes c) 1 = Some n /\ knows_id n /\ nd_wait n = None /\
    nd_latest n = Status 2 1 Leader (Some (LeaderInfo 2 81 91)) /\
    pd_view (cl_pd c) 1 2 (Status 2 1 Follower (Some (LeaderInfo 2 81 91))) /\ settled c 1.
Proof.
  destruct (csteps c61_evs cl_empty) as [c|] eqn:E; [|vm_compute in E; discriminate E].
  assert (S : settled c 1).
  { eapply (C60_heartbeat_settles (c57_evs ++ [SLost 2; SCheck 9000]) _ _ c 9100 1); vm_compute; [reflexivity|reflexivity|].
    vm_compute in E. exact E. }
  vm_compute in E. injection E as <-. eexists _, _. split; [reflexivity|]. split; [reflexivity|].
  split; [done|]. split; [done|]. split; [reflexivity|]. split; [|done].
  eexists _, _. cbn. split; [by left|]. split; [right; by left|]. done.
Qed.
Print Assumptions C61_demoted_leader_refuted.
Example C61_case :
  exists c n, csteps (take 11 c57_evs) cl_empty = Some c /\ nth_error (cl_nodes c) 1 = Some n /\
    nd_latest n = Status 2 1 Follower (Some (LeaderInfo 1 80 90)) /\
    pd_view (cl_pd c) 1 2 (Status 2 1 Leader (Some (LeaderInfo 2 81 91))).
Proof.
  destruct (csteps (take 11 c57_evs) cl_empty) as [c|] eqn:E; vm_compute in E; [|discriminate E]. injection E as <-.
  eexists _, _. split; [reflexivity|]. split; [reflexivity|]. split; [reflexivity|].
  eexists _, _. cbn. split; [by left|]. split; [right; by left|]. done.
Qed.
