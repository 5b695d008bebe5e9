(** Lemmas about the servers of a placement driver. *)
From Verif Require Import BytesFacts SpecPd.
From Verif Require Export PdFacts.
Local Open Scope nat_scope.

(** ** The driver's view of a server *)

Lemma view_unique p gid sid v w : pd_ok p -> pd_view p gid sid v -> pd_view p gid sid w -> v = w.
Proof.
  intros [A B C] (g & s & Ig & Is & Eg & Es & ->) (g' & s' & Ig' & Is' & Eg' & Es' & ->).
  pose proof (find_id gr_id _ gid g A Ig Eg) as F. rewrite (find_id gr_id _ gid g' A Ig' Eg') in F. injection F as ->.
  destruct (C g Ig) as [N _ _ _ _].
  pose proof (find_id sv_id _ sid s N Is Es) as F. rewrite (find_id sv_id _ sid s' N Is' Es') in F. by injection F as ->.
Qed.

(** What a heartbeat is answered with. *)
Lemma heartbeat_view now gid sid p v :
  pd_ok p -> pd_view p gid sid v -> snd (heartbeat_server now gid sid p) = Some v.
Proof.
  intros [A B C] (g & s & Ig & Is & Eg & Es & ->). unfold heartbeat_server.
  rewrite (find_id gr_id _ gid g A Ig Eg). destruct (C g Ig) as [N _ _ _ _].
  rewrite (find_id sv_id _ sid s N Is Es). cbn. unfold status_of. by rewrite Es, Eg.
Qed.
Lemma heartbeat_answer now data p v :
  pd_ok p -> pd_view p (st_group data) (st_server data) v ->
  snd (server_heartbeat now data p) = if decide (data = v) then None else Some v.
Proof.
  intros P V. unfold server_heartbeat. pose proof (heartbeat_view now _ _ p v P V) as H.
  destruct (heartbeat_server _ _ _ p) as [p' o]. cbn in H. subst o. cbn.
  destruct (decide (data = v)); [by rewrite bool_decide_true|by rewrite bool_decide_false].
Qed.
Lemma heartbeat_some now data p st :
  snd (server_heartbeat now data p) = Some st -> pd_view p (st_group data) (st_server data) st.
Proof.
  unfold server_heartbeat, heartbeat_server. destruct (find _ (pd_groups p)) as [g|] eqn:G; [|done].
  destruct (find _ (gr_servers g)) as [s|] eqn:S; [|done]. cbn.
  destruct (bool_decide _); [done|]. intros H. injection H as <-.
  apply find_id_some in G as [Ig Eg]. apply find_id_some in S as [Is Es].
  exists g, s. unfold status_of. by rewrite Es, Eg.
Qed.
Lemma heartbeat_none now data p :
  (forall v, ~ pd_view p (st_group data) (st_server data) v) -> server_heartbeat now data p = (p, None).
Proof.
  intros H. unfold server_heartbeat, heartbeat_server. destruct (find _ (pd_groups p)) as [g|] eqn:G; [|done].
  destruct (find _ (gr_servers g)) as [s|] eqn:S; [|done].
  apply find_id_some in G as [Ig Eg]. apply find_id_some in S as [Is Es].
  exfalso. eapply H. exists g, s. done.
Qed.
(** A heartbeat changes nobody's view. *)
Lemma heartbeat_same_view now a b p gid sid v :
  pd_view p gid sid v -> pd_view (fst (heartbeat_server now a b p)) gid sid v.
Proof.
  intros (g & s & Ig & Is & Eg & Es & ->). unfold heartbeat_server.
  destruct (find _ (pd_groups p)) as [h|] eqn:H; [|by exists g, s].
  destruct (find _ (gr_servers h)) as [t|] eqn:T; [|by exists g, s]. cbn [fst].
  set (f := fun g0 : group => with_servers _ g0).
  pose proof (update_first_spec (fun g => gr_id g =? a)%N f (pd_groups p)) as U. rewrite H in U. destruct U as (C & k & N & U).
  cbn. unfold pd_view. cbn. rewrite U. apply In_nth_error in Ig as [i Ig]. destruct (Nat.eq_dec i k) as [Q|Q].
  - subst i. rewrite N in Ig. injection Ig as ->.
    pose proof (update_first_spec (fun s => sv_id s =? b)%N (with_beat now) (gr_servers g)) as W. rewrite T in W.
    destruct W as (Ct & j & Nj & W).
    exists (f g). assert (I1 : In (f g) (update_at k f (pd_groups p))).
    { apply (nth_error_In _ k). by rewrite nth_update_at, Nat.eqb_refl, N. }
    apply In_nth_error in Is as [m Is]. destruct (Nat.eq_dec m j) as [Q|Q].
    + subst m. rewrite Nj in Is. injection Is as ->. exists (with_beat now s). split; [done|]. split; [|done].
      subst f. cbn. rewrite W. apply (nth_error_In _ j). by rewrite nth_update_at, Nat.eqb_refl, Nj.
    + exists s. split; [done|]. split; [|done]. subst f. cbn. rewrite W. apply (nth_error_In _ m).
      rewrite nth_update_at. by destruct (Nat.eqb_spec m j).
  - exists g, s. split; [|done]. apply (nth_error_In _ i). rewrite nth_update_at. by destruct (Nat.eqb_spec i k).
Qed.

(** ** Servers known to the driver *)
Definition known (p : pd) (x : N * N) : Prop := exists v, pd_view p (fst x) (snd x) v.

Lemma known_create p x : known p x -> known (create_group p) x.
Proof. intros (v & g & s & I & R). exists v, g, s. split; [|done]. cbn. apply in_or_app. by left. Qed.
Lemma known_check now p x : pd_ok p -> known p x -> known (survival_check now p) x.
Proof.
  intros P (v & g & s & I & Is & Eg & Es & ->).
  assert (O : one_leader g) by (apply (po_groups p P g I)).
  destruct (check_checked now g O) as (_ & _ & F & _). apply same_ids in F.
  assert (H : In (sv_id s) (map sv_id (gr_servers (check_group now g)))) by (rewrite F; by apply in_map).
  apply in_map_iff in H as (t & Et & It).
  eexists _, (check_group now g), t. split; [cbn; by apply in_map|]. split; [done|]. split; [by rewrite check_group_id|].
  split; [congruence|]. reflexivity.
Qed.
Lemma known_beat now a b p x : known p x -> known (fst (heartbeat_server now a b p)) x.
Proof. intros (v & V). exists v. by apply heartbeat_same_view. Qed.
Lemma known_init now gid sa fa p x : known p x -> known (fst (server_init now gid sa fa p)) x.
Proof.
  intros (v & g & s & I & Is & Eg & Es & ->). unfold server_init.
  destruct (find _ (pd_groups p)) as [h|] eqn:H; [|by eexists _, g, s]. cbn [fst].
  pose proof (update_first_spec (fun g => gr_id g =? gid)%N (fun g => fst (group_join now sa fa g)) (pd_groups p)) as U.
  rewrite H in U. destruct U as (_ & k & N & U). apply In_nth_error in I as [i I]. destruct (Nat.eq_dec i k) as [Q|Q].
  - subst i. rewrite N in I. injection I as ->.
    eexists _, (fst (group_join now sa fa g)), s. cbn [pd_groups]. rewrite U. split.
    { apply (nth_error_In _ k). by rewrite nth_update_at, Nat.eqb_refl, N. }
    split; [|done]. cbn. apply in_or_app. by left.
  - eexists _, g, s. cbn [pd_groups]. rewrite U. split; [|done]. apply (nth_error_In _ i). rewrite nth_update_at.
    by destruct (Nat.eqb_spec i k).
Qed.
(** A new server is not known before, and known afterwards with the view it is given. *)
Lemma init_new now gid sa fa p st :
  pd_ok p -> snd (server_init now gid sa fa p) = Some st ->
  ~ known p (st_group st, st_server st) /\ pd_view (fst (server_init now gid sa fa p)) (st_group st) (st_server st) st /\
  (1 <= st_group st)%N /\ (1 <= st_server st)%N.
Proof.
  intros P. unfold server_init. destruct (find _ (pd_groups p)) as [g|] eqn:G; [|done]. cbn [fst snd].
  intros H. assert (E : st = snd (group_join now sa fa g)) by congruence. clear H. subst st.
  pose proof (update_first_spec (fun g => gr_id g =? gid)%N (fun g => fst (group_join now sa fa g)) (pd_groups p)) as U.
  rewrite G in U. destruct U as (_ & k & N & U).
  apply find_id_some in G as [Ig Eg]. pose proof (po_range p P g Ig) as Rg. split; [|split; [|split]].
  - intros (v & h & s & Ih & Is & Eh & Es & _). cbn in Eh, Es.
    pose proof (find_id gr_id _ (gr_id g) h (po_ids p P) Ih Eh) as F.
    rewrite (find_id gr_id _ (gr_id g) g (po_ids p P) Ig eq_refl) in F. injection F as ->.
    pose proof (go_range h (po_groups p P h Ig) s Is) as R. lia.
  - eexists _, _. cbn [pd_groups]. rewrite U. split.
    { apply (nth_error_In _ k). by rewrite nth_update_at, Nat.eqb_refl, N. }
    split; [cbn; apply in_or_app; right; by left|]. done.
  - cbn. lia.
  - cbn. lia.
Qed.
Lemma known_step ev c c' x : pd_ok (cl_pd c) -> cstep ev c = Some c' -> known (cl_pd c) x -> known (cl_pd c') x.
Proof.
  destruct c as [p l]. intros P H K. cbn [cl_pd] in P, K. destruct ev; cbn [cstep] in H.
  - injection H as <-. by apply known_create.
  - pose proof (known_init now gid sa fa p x K) as Q. destruct (server_init now gid sa fa p) as [p' [st|]];
      injection H as <-; exact Q.
  - destruct (nth_error l i) as [n|]; [|done]. unfold node_beat in H. destruct (nd_beats n); [|done].
    destruct (nd_wait n); [done|].
    pose proof (server_heartbeat_fst now (nd_latest n) p) as F.
    pose proof (known_beat now (st_group (nd_latest n)) (st_server (nd_latest n)) p x K) as Q. rewrite <- F in Q.
    destruct (server_heartbeat now (nd_latest n) p) as [p' o]. injection H as <-. exact Q.
  - destruct (at_node i _ l); [|done]. by injection H as <-.
  - destruct (at_node i _ l); [|done]. by injection H as <-.
  - injection H as <-. by apply known_check.
Qed.

Lemma handed_out_new evs : forall c c', pd_ok (cl_pd c) -> csteps evs c = Some c' ->
  List.NoDup (handed_out evs c) /\ (forall x, In x (handed_out evs c) -> ~ known (cl_pd c) x).
Proof.
  induction evs as [|ev evs IH]; intros c c' P H; cbn [csteps handed_out] in *; [split; [constructor|by intros x []]|].
  destruct (cstep ev c) as [c1|] eqn:E; [|done].
  assert (P1 : pd_ok (cl_pd c1)) by (by apply (cstep_pd_ok ev c)).
  destruct (IH c1 c' P1 H) as [ND NK].
  assert (K : forall x, known (cl_pd c) x -> known (cl_pd c1) x) by (intros x; by apply (known_step ev)).
  assert (NK' : forall x, In x (handed_out evs c1) -> ~ known (cl_pd c) x).
  { intros x I X. apply (NK x I). by apply K. }
  destruct ev; cbn [app]; try (by split).
  destruct (snd (server_init now gid sa fa (cl_pd c))) as [st|] eqn:J; [|by split]. cbn [app].
  destruct (init_new now gid sa fa (cl_pd c) st P J) as (Q1 & Q2 & _).
  assert (K1 : known (cl_pd c1) (st_group st, st_server st)).
  { exists st. destruct c as [p l]. cbn [cl_pd cstep] in *.
    destruct (server_init now gid sa fa p) as [p' o]. cbn [snd fst] in *. subst o. injection E as <-. exact Q2. }
  split.
  - constructor; [|done]. intros I. by apply (NK _ I).
  - intros x [<-|I]; [done|]. by apply NK'.
Qed.

(** ** Groups *)
Lemma groups_step ev c c' :
  cstep ev c = Some c' ->
  map gr_id (pd_groups (cl_pd c')) =
    map gr_id (pd_groups (cl_pd c)) ++ match ev with SCreate => [(pd_latest (cl_pd c) + 1)%N] | _ => [] end /\
  pd_latest (cl_pd c') = (pd_latest (cl_pd c) + match ev with SCreate => 1 | _ => 0 end)%N.
Proof.
  destruct c as [p l]. intros H. cbn [cl_pd]. destruct ev; cbn [cstep] in H; rewrite ?app_nil_r, ?N.add_0_r.
  - injection H as <-. cbn. rewrite map_app. done.
  - unfold server_init in H. destruct (find _ _) as [g|]; injection H as <-; [|done]. cbn. by rewrite map_update_first.
  - destruct (nth_error l i) as [n|]; [|done]. unfold node_beat in H. destruct (nd_beats n); [|done].
    destruct (nd_wait n); [done|]. unfold server_heartbeat, heartbeat_server in H.
    destruct (find _ (pd_groups p)) as [g|]; [destruct (find _ (gr_servers g))|]; injection H as <-; cbn; rewrite ?map_update_first; done.
  - destruct (at_node i _ l); [|done]. by injection H as <-.
  - destruct (at_node i _ l); [|done]. by injection H as <-.
  - injection H as <-. cbn. rewrite map_map. split; [|done]. apply map_ext. intros g. apply check_group_id.
Qed.
Lemma groups_steps evs : forall c c' n, csteps evs c = Some c' -> pd_latest (cl_pd c) = N.of_nat n ->
  map gr_id (pd_groups (cl_pd c)) = map N.of_nat (seq 1 n) ->
  map gr_id (pd_groups (cl_pd c')) = map N.of_nat (seq 1 (n + creations evs)).
Proof.
  induction evs as [|ev evs IH]; intros c c' n H L E; cbn in H.
  - injection H as <-. unfold creations. cbn. by rewrite Nat.add_0_r.
  - destruct (cstep ev c) as [c1|] eqn:CS; [|done]. destruct (groups_step ev c c1 CS) as [G1 G2].
    unfold creations. destruct ev; cbn [List.filter length].
    1: { replace (n + S (length (List.filter (fun ev => match ev with SCreate => true | _ => false end) evs)))
           with (S n + creations evs) by (unfold creations; lia).
         apply (IH c1 c' (S n) H); [rewrite G2, L; lia|]. rewrite G1, E, L, seq_S, map_app. cbn. do 3 f_equal. lia. }
    all: apply (IH c1 c' n H); [rewrite G2, L; lia|by rewrite G1, app_nil_r].
Qed.

(** ** What a server remembers *)
Lemma nth_replace {A} (l : list A) i j x :
  nth_error (update_at i (fun _ => x) l) j =
    if Nat.eqb j i then (if Nat.ltb i (length l) then Some x else None) else nth_error l j.
Proof.
  rewrite nth_update_at. destruct (Nat.eqb_spec j i) as [Q|Q]; [subst j|done].
  destruct (Nat.ltb_spec i (length l)) as [L|L].
  - destruct (nth_error l i) as [y|] eqn:E; [done|]. apply nth_error_None in E. lia.
  - by rewrite (proj2 (nth_error_None l i) L).
Qed.

Definition own_leader (st : status) : Prop :=
  st_role st = Leader -> exists li, st_leader st = Some li /\ li_id li = st_server st.
(** What holds of a node at all times. *)
Record node_ok (p : pd) (n : node) : Prop := {
  no_group : (1 <= st_group (nd_given n))%N;
  no_known : known p (st_group (nd_given n), st_server (nd_given n));
  no_latest : nd_latest n = status_default \/ knows_id n /\ own_leader (nd_latest n);
  no_wait : forall st, nd_wait n = Some (Some st) ->
    knows_id n /\ st_group st = st_group (nd_given n) /\ st_server st = st_server (nd_given n) /\ own_leader st }.

Lemma view_own p gid sid v : pd_ok p -> pd_view p gid sid v -> own_leader v.
Proof.
  intros P (g & s & Ig & Is & Eg & Es & ->) R. cbn in R |- *.
  destruct (po_groups p P g Ig) as [_ _ _ D _]. rewrite (D s Is R). eexists. split; [reflexivity|]. done.
Qed.
Lemma view_ids p gid sid v : pd_view p gid sid v -> st_group v = gid /\ st_server v = sid.
Proof. intros (g & s & _ & _ & _ & _ & ->). done. Qed.

Lemma node_ok_known p p' n : (forall x, known p x -> known p' x) -> node_ok p n -> node_ok p' n.
Proof. intros K [A B C D]. split; auto. Qed.

(** What processing an answer does. *)
Lemma update_status_spec snap cmd st n :
  let '(n', ok) := update_status snap cmd st n in
  nd_given n' = nd_given n /\ nd_wait n' = nd_wait n /\ nd_beats n' = nd_beats n /\
  (nd_latest n' = nd_latest n \/ nd_latest n' = st) /\
  (snap && cmd = true -> ok = true) /\
  (ok = true -> st_role (nd_latest n) = Follower -> st_group st = st_group (nd_latest n) ->
     st_server st = st_server (nd_latest n) -> nd_latest n' = st).
Proof.
  unfold update_status.
  destruct (decide (st_role st = Follower)) as [F|F]; [rewrite (bool_decide_true _ F)|rewrite (bool_decide_false _ F)].
  - destruct (decide (st_leader (nd_latest n) = st_leader st)) as [E|E];
      [rewrite (bool_decide_true _ E)|rewrite (bool_decide_false _ E)]; cbn [andb negb].
    + rewrite (bool_decide_false (st_role st = Leader)) by congruence. rewrite andb_false_r.
      split; [done|]. split; [done|]. split; [done|]. split; [by left|]. split; [done|].
      intros _ R G S. destruct st, (nd_latest n). cbn in *. congruence.
    + destruct (snap && cmd) eqn:SC; cbn.
      * split; [done|]. split; [done|]. split; [done|]. split; [by right|]. done.
      * split; [done|]. split; [done|]. split; [done|]. split; [by left|]. done.
  - assert (L : st_role st = Leader) by (by destruct (st_role st)). rewrite (bool_decide_true _ L). cbn [andb].
    rewrite andb_true_r. destruct (decide (st_role (nd_latest n) = Follower)) as [E|E];
      [rewrite (bool_decide_true _ E)|rewrite (bool_decide_false _ E)]; cbn.
    + split; [done|]. split; [done|]. split; [done|]. split; [by right|]. done.
    + split; [done|]. split; [done|]. split; [done|]. split; [by left|]. split; [done|]. intros _ X. done.
Qed.

Lemma node_start_ok snap cmd p st :
  pd_ok p -> (1 <= st_group st)%N -> pd_view p (st_group st) (st_server st) st -> node_ok p (node_start snap cmd st).
Proof.
  intros P G V. unfold node_start. pose proof (update_status_spec snap cmd st (Node st status_default None false None true)) as U.
  destruct (update_status snap cmd st _) as [n ok]. cbn in U. destruct U as (E1 & E2 & E3 & E4 & _).
  split; cbn; rewrite ?E1; [done|by exists st| |done].
  destruct E4 as [->| ->]; [by left|right]. split; [split; cbn; congruence|]. by apply (view_own p _ _ _ P V).
Qed.
Lemma node_beat_ok now p n p' n' :
  pd_ok p -> node_beat now p n = Some (p', n') -> node_ok p n -> node_ok p' n' /\ nd_given n' = nd_given n.
Proof.
  intros P H O. unfold node_beat in H. destruct (nd_beats n); [|done]. destruct (nd_wait n); [done|].
  pose proof (server_heartbeat_fst now (nd_latest n) p) as F.
  pose proof (heartbeat_some now (nd_latest n) p) as V.
  pose proof (heartbeat_none now (nd_latest n) p) as Z.
  destruct (server_heartbeat now (nd_latest n) p) as [q o]. cbn [fst snd] in *. injection H as <- <-.
  assert (K : forall x, known p x -> known q x) by (intros x; rewrite F; apply known_beat).
  apply (node_ok_known p q n K) in O. destruct O as [A B C D]. split; [|done]. split; cbn; try done.
  intros st E. injection E as ->. specialize (V st eq_refl). destruct (view_ids _ _ _ _ V) as [V1 V2].
  destruct C as [C|[C _]].
  - exfalso. destruct V as (g & s & Ig & Is & Eg & Es & _). pose proof (po_range p P g Ig) as R. rewrite C in Eg. cbn in Eg. lia.
  - split; [done|]. destruct C as [C1 C2]. rewrite V1, V2. split; [done|]. split; [done|]. by apply (view_own p _ _ _ P V).
Qed.
Lemma node_apply_ok snap cmd p n n' :
  node_apply snap cmd n = Some n' -> node_ok p n -> node_ok p n' /\ nd_given n' = nd_given n.
Proof.
  intros H [A B C D]. unfold node_apply in H. destruct (nd_beats n) eqn:NB; [|done]. destruct (nd_wait n) as [[st|]|] eqn:W; [| |done].
  - destruct (D st eq_refl) as (K & G & S & OL).
    set (m := Node (nd_given n) (nd_latest n) (nd_target n) (nd_rx n) None true) in *.
    pose proof (update_status_spec snap cmd st m) as U. destruct (update_status snap cmd st m) as [u ok].
    injection H as <-. cbn in U |- *. destruct U as (E1 & E2 & E3 & E4 & _).
    split; [|done]. split; rewrite ?E1; [done|done| |by rewrite E2].
    destruct E4 as [E| E]; rewrite E.
    + destruct C as [C|[C1 C2]]; [by left|right]. unfold knows_id. rewrite E, E1. done.
    + right. unfold knows_id. rewrite E, E1. done.
  - injection H as <-. split; [|done]. split; cbn; done.
Qed.
Lemma node_lost_ok p n n' : node_lost n = Some n' -> node_ok p n -> node_ok p n' /\ nd_given n' = nd_given n.
Proof.
  intros H [A B C D]. unfold node_lost in H. destruct (nd_beats n); [|done]. injection H as <-. split; [|done]. by split.
Qed.

(** The invariant of driver and servers. *)
Record cluster_ok (c : cluster) : Prop := {
  co_pd : pd_ok (cl_pd c);
  co_nodes : forall n, In n (cl_nodes c) -> node_ok (cl_pd c) n;
  co_given : List.NoDup (map (fun n => (st_group (nd_given n), st_server (nd_given n))) (cl_nodes c)) }.

Lemma at_node_spec i f l l' :
  at_node i f l = Some l' -> exists n n', nth_error l i = Some n /\ f n = Some n' /\ l' = update_at i (fun _ => n') l.
Proof.
  unfold at_node. destruct (nth_error l i) as [n|]; [|done]. destruct (f n) as [n'|] eqn:E; [|done].
  intros H. injection H as <-. by exists n, n'.
Qed.
Lemma replace_ok p p' i n n' l :
  (forall m, In m l -> node_ok p m) ->
  List.NoDup (map (fun n => (st_group (nd_given n), st_server (nd_given n))) l) ->
  (forall x, known p x -> known p' x) ->
  nth_error l i = Some n -> node_ok p' n' -> nd_given n' = nd_given n ->
  (forall m, In m (update_at i (fun _ => n') l) -> node_ok p' m) /\
  List.NoDup (map (fun n => (st_group (nd_given n), st_server (nd_given n))) (update_at i (fun _ => n') l)).
Proof.
  intros A B K E O G. split.
  - intros m I. apply in_update_at in I as [I|(x & _ & ->)]; [|done]. apply (node_ok_known p p' m K). by apply A.
  - replace (map _ (update_at i (fun _ => n') l)) with (map (fun n => (st_group (nd_given n), st_server (nd_given n))) l); [done|].
    clear A B K O. revert i E. induction l as [|x l IH]; intros [|i] E; cbn in *; try done.
    + injection E as ->. by rewrite G.
    + by rewrite (IH i E).
Qed.
Lemma cstep_ok ev c c' : cstep ev c = Some c' -> cluster_ok c -> cluster_ok c'.
Proof.
  intros H [P N D]. pose proof (cstep_pd_ok ev c c' H P) as P'.
  assert (K : forall x, known (cl_pd c) x -> known (cl_pd c') x) by (intros x; by apply (known_step ev)).
  assert (X : (forall n, In n (cl_nodes c') -> node_ok (cl_pd c') n) /\
              List.NoDup (map (fun n => (st_group (nd_given n), st_server (nd_given n))) (cl_nodes c'))); [|destruct X; by split].
  destruct c as [p l]. cbn [cl_pd cl_nodes] in *. destruct ev; cbn [cstep] in H.
  - injection H as <-. cbn in *. split; [|done]. intros n I. apply (node_ok_known p); auto.
  - pose proof (init_new now gid sa fa p) as J. destruct (server_init now gid sa fa p) as [p' [st|]]; injection H as <-; cbn in *.
    + destruct (J st P eq_refl) as (J1 & J2 & J3 & J4).
      assert (O : node_ok p' (node_start snap cmd st)) by (by apply node_start_ok).
      assert (G : nd_given (node_start snap cmd st) = st).
      { unfold node_start. pose proof (update_status_spec snap cmd st (Node st status_default None false None true)) as U.
        destruct (update_status snap cmd st _) as [n ok]. by destruct U. }
      split.
      * intros n I. apply in_app_or in I as [I|[<-|[]]]; [apply (node_ok_known p); auto|done].
      * rewrite map_app. cbn. apply nodup_snoc; [done|]. rewrite G. intros I. apply J1.
        apply in_map_iff in I as (n & <- & I). by apply (N n I).
    + split; [|done]. intros n I. apply (node_ok_known p); auto.
  - destruct (nth_error l i) as [n|] eqn:E; [|done]. destruct (node_beat now p n) as [[q n']|] eqn:B; [|done].
    injection H as <-. cbn in *. destruct (node_beat_ok now p n q n' P B) as [O G]; [apply N; by eapply nth_error_In|].
    by apply (replace_ok p q i n n' l).
  - destruct (at_node i _ l) as [l'|] eqn:A; [|done]. injection H as <-. cbn in *.
    apply at_node_spec in A as (n & n' & E & F & ->).
    destruct (node_apply_ok snap cmd p n n' F) as [O G]; [apply N; by eapply nth_error_In|].
    by apply (replace_ok p p i n n' l).
  - destruct (at_node i _ l) as [l'|] eqn:A; [|done]. injection H as <-. cbn in *.
    apply at_node_spec in A as (n & n' & E & F & ->).
    destruct (node_lost_ok p n n' F) as [O G]; [apply N; by eapply nth_error_In|].
    by apply (replace_ok p p i n n' l).
  - injection H as <-. cbn in *. split; [|done]. intros n I. apply (node_ok_known p); auto.
Qed.
Lemma csteps_ok evs : forall c c', csteps evs c = Some c' -> cluster_ok c -> cluster_ok c'.
Proof.
  induction evs as [|ev evs IH]; intros c c' H O; cbn in H; [by injection H as <-|].
  destruct (cstep ev c) as [c1|] eqn:E; [|done]. apply (IH c1 c' H). by apply (cstep_ok ev c).
Qed.
Lemma reached_ok c : reached c -> cluster_ok c.
Proof.
  intros [evs H]. apply (csteps_ok evs cl_empty c H). split; cbn; [apply pd_empty_ok|by intros n []|constructor].
Qed.

(** ** A server that has not learned its id *)
Lemma default_unknown p v : pd_ok p -> ~ pd_view p 0 0 v.
Proof. intros P (g & s & Ig & _ & Eg & _). pose proof (po_range p P g Ig). lia. Qed.
Lemma default_step ev c c' i n :
  cluster_ok c -> cstep ev c = Some c' -> nth_error (cl_nodes c) i = Some n -> nd_latest n = status_default ->
  exists n', nth_error (cl_nodes c') i = Some n' /\ nd_latest n' = status_default /\ nd_given n' = nd_given n /\
    (nd_wait n <> Some None -> nd_wait n <> None -> False) /\ (forall st, nd_wait n' <> Some (Some st)).
Proof.
  intros O H E L. assert (W : forall st, nd_wait n <> Some (Some st)).
  { intros st Q. destruct (co_nodes c O n (nth_error_In _ _ E)) as [A B C D]. destruct (D st Q) as ([K1 K2] & _).
    rewrite L in K1. cbn in K1. lia. }
  assert (WN : nd_wait n <> Some None -> nd_wait n <> None -> False).
  { intros A B. destruct (nd_wait n) as [[st|]|]; [by apply (W st)|done|done]. }
  assert (L0 : i < length (cl_nodes c)) by (apply nth_error_Some; congruence).
  destruct O as [P N D].
  destruct c as [p l]. cbn [cl_pd cl_nodes] in *. destruct ev as [|t gid sa fa snap cmd|t j|j snap cmd|j|t]; cbn [cstep] in H.
  - injection H as <-. by exists n.
  - destruct (server_init t gid sa fa p) as [p' [st|]]; injection H as <-; cbn [cl_nodes]; [|by exists n].
    exists n. rewrite nth_error_app1 by done. done.
  - destruct (nth_error l j) as [m|] eqn:Ej; [|done]. unfold node_beat in H. destruct (nd_beats m) eqn:NB; [|done].
    destruct (nd_wait m) eqn:NW; [done|].
    destruct (server_heartbeat t (nd_latest m) p) as [p' o] eqn:SH. injection H as <-. cbn [cl_nodes].
    rewrite nth_replace. destruct (Nat.eqb_spec i j) as [Q|Q]; [subst j|by exists n].
    rewrite (proj2 (Nat.ltb_lt _ _) L0). rewrite E in Ej. injection Ej as <-.
    eexists. split; [reflexivity|]. cbn. split; [done|]. split; [done|]. split; [done|].
    intros st Q. injection Q as ->. rewrite heartbeat_none in SH; [done|]. rewrite L. cbn. intros v. by apply default_unknown.
  - destruct (at_node j _ l) as [l'|] eqn:A; [|done]. injection H as <-. cbn [cl_nodes].
    apply at_node_spec in A as (m & m' & Ej & F & ->).
    rewrite nth_replace. destruct (Nat.eqb_spec i j) as [Q|Q]; [subst j|by exists n].
    rewrite (proj2 (Nat.ltb_lt _ _) L0). rewrite E in Ej. injection Ej as <-.
    unfold node_apply in F. destruct (nd_beats n); [|done]. destruct (nd_wait n) as [[st|]|] eqn:NW; [by destruct (W st)| |done].
    injection F as <-. eexists. split; [reflexivity|]. done.
  - destruct (at_node j _ l) as [l'|] eqn:A; [|done]. injection H as <-. cbn [cl_nodes].
    apply at_node_spec in A as (m & m' & Ej & F & ->).
    rewrite nth_replace. destruct (Nat.eqb_spec i j) as [Q|Q]; [subst j|by exists n].
    rewrite (proj2 (Nat.ltb_lt _ _) L0). rewrite E in Ej. injection Ej as <-.
    unfold node_lost in F. destruct (nd_beats n); [|done]. injection F as <-. eexists. split; [reflexivity|]. done.
  - injection H as <-. by exists n.
Qed.
Lemma default_steps evs : forall c c' i n,
  cluster_ok c -> csteps evs c = Some c' -> nth_error (cl_nodes c) i = Some n -> nd_latest n = status_default ->
  exists n', nth_error (cl_nodes c') i = Some n' /\ nd_latest n' = status_default /\ nd_given n' = nd_given n.
Proof.
  induction evs as [|ev evs IH]; intros c c' i n O H E L; cbn in H; [injection H as <-; by exists n|].
  destruct (cstep ev c) as [c1|] eqn:S; [|done].
  destruct (default_step ev c c1 i n O S E L) as (n1 & E1 & L1 & G1 & _).
  destruct (IH c1 c' i n1 (cstep_ok ev c c1 S O) H E1 L1) as (n2 & E2 & L2 & G2). exists n2. split; [done|]. split; [done|]. congruence.
Qed.

(** ** Servers that know their id *)
Lemma beat_apply now i snap cmd c c1 c2 n n2 :
  nth_error (cl_nodes c) i = Some n -> cstep (SBeat now i) c = Some c1 -> cstep (SApply i snap cmd) c1 = Some c2 ->
  nth_error (cl_nodes c2) i = Some n2 ->
  nd_beats n = true /\ nd_wait n = None /\
  let m := Node (nd_given n) (nd_latest n) (nd_target n) (nd_rx n) None true in
  n2 = match snd (server_heartbeat now (nd_latest n) (cl_pd c)) with
       | None => m
       | Some st => fst (update_status snap cmd st m)
       end.
Proof.
  destruct c as [p l]. intros E H1 H2 E2. cbn [cl_nodes cl_pd cstep] in *. rewrite E in H1. unfold node_beat in H1.
  destruct (nd_beats n); [|done]. destruct (nd_wait n); [done|].
  destruct (server_heartbeat now (nd_latest n) p) as [p' o]. injection H1 as <-.
  assert (L0 : i < length l) by (apply nth_error_Some; congruence).
  cbn [cstep] in H2. destruct (at_node i _ _) as [l'|] eqn:A; [|done]. injection H2 as <-. cbn [cl_nodes] in E2.
  apply at_node_spec in A as (m & m' & Em & F & ->). rewrite nth_replace, Nat.eqb_refl in Em.
  rewrite (proj2 (Nat.ltb_lt _ _) L0) in Em. injection Em as <-.
  rewrite nth_replace, Nat.eqb_refl, update_at_length in E2. rewrite (proj2 (Nat.ltb_lt _ _) L0) in E2. injection E2 as <-.
  split; [done|]. split; [done|]. cbn [snd]. unfold node_apply in F. cbn in F. destruct o; by injection F as <-.
Qed.

(** What a server that knows its id and is settled believes. *)
Lemma settled_leader c i n v :
  cluster_ok c -> nth_error (cl_nodes c) i = Some n -> knows_id n -> nd_beats n = true -> nd_wait n = None ->
  settled c i -> believes n -> pd_view (cl_pd c) (st_group (nd_given n)) (st_server (nd_given n)) v ->
  exists li, st_leader v = Some li /\ li_id li = st_server (nd_given n).
Proof.
  intros O E [K1 K2] B W S R V. destruct (st_role v) eqn:Rv.
  - destruct (view_own _ _ _ v (co_pd c O) V Rv) as (li & L1 & L2). exists li. split; [done|].
    rewrite L2. by apply (view_ids _ _ _ _ V).
  - destruct (co_nodes c O n (nth_error_In _ _ E)) as [A Bk C D]. destruct C as [C|[_ OL]].
    { exfalso. rewrite C in K1. cbn in K1. lia. }
    destruct (OL R) as (li & L1 & L2). exists li. split; [|by rewrite L2].
    destruct (decide (st_leader (nd_latest n) = st_leader v)) as [Q|Q]; [congruence|]. exfalso.
    destruct c as [p l]. cbn [cl_nodes cl_pd] in *.
    assert (L0 : i < length l) by (apply nth_error_Some; congruence).
    assert (HA : snd (server_heartbeat 0 (nd_latest n) p) = Some v).
    { rewrite (heartbeat_answer 0 (nd_latest n) p v (co_pd _ O)) by (by rewrite K1, K2).
      rewrite decide_False; [done|]. intros X. apply Q. by rewrite X. }
    destruct (server_heartbeat 0 (nd_latest n) p) as [p' o] eqn:SH. cbn in HA. subst o.
    set (m := Node (nd_given n) (nd_latest n) (nd_target n) (nd_rx n) None true).
    assert (U : update_status true true v m = (Node (nd_given n) v (st_leader v) true None true, true)).
    { unfold update_status. rewrite (bool_decide_true _ Rv). cbn [nd_latest m].
      by rewrite (bool_decide_false _ Q). }
    assert (X : nd_latest (Node (nd_given n) v (st_leader v) true None true) = nd_latest n).
    { eapply (S 0%N n _ _ (Node (nd_given n) v (st_leader v) true None true)).
      - exact E.
      - cbn [cstep cl_nodes]. rewrite E. unfold node_beat. rewrite B, W, SH. reflexivity.
      - cbn [cstep]. unfold at_node. rewrite nth_replace, Nat.eqb_refl, (proj2 (Nat.ltb_lt _ _) L0).
        unfold node_apply. cbn [nd_beats nd_wait nd_given nd_latest nd_target nd_rx]. fold m. rewrite U. cbn [fst option_map]. reflexivity.
      - cbn [cl_nodes]. by rewrite nth_replace, Nat.eqb_refl, update_at_length, (proj2 (Nat.ltb_lt _ _) L0). }
    cbn in X. subst v. unfold believes in R. congruence.
Qed.
