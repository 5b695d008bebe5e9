(** Lemmas about the placement driver. *)
From Verif Require Import BytesFacts SpecPd.
From Verif Require Export Pd.
Local Open Scope nat_scope.

Lemma nth_update_at {A} (f : A -> A) l i j :
  nth_error (update_at i f l) j = if Nat.eqb j i then option_map f (nth_error l j) else nth_error l j.
Proof.
  revert i j. induction l as [|x l IH]; intros i j.
  - cbn. destruct j; destruct (Nat.eqb _ _); reflexivity.
  - destruct i as [|i], j as [|j]; cbn; done || apply IH.
Qed.
Lemma update_at_length {A} (f : A -> A) l i : length (update_at i f l) = length l.
Proof. revert i. induction l as [|x l IH]; intros [|i]; cbn; try done. by rewrite IH. Qed.
Lemma in_update_at {A} (f : A -> A) l i y :
  In y (update_at i f l) -> In y l \/ exists x, nth_error l i = Some x /\ y = f x.
Proof.
  intros H. apply In_nth_error in H as [j H]. rewrite nth_update_at in H.
  destruct (Nat.eqb_spec j i) as [Q|Q]; [subst j|].
  - destruct (nth_error l i) as [x|] eqn:E; [|done]. injection H as <-. right. by exists x.
  - left. by eapply nth_error_In.
Qed.
Lemma map_update_at {A B} (h : A -> B) (f : A -> A) l i :
  (forall x, h (f x) = h x) -> map h (update_at i f l) = map h l.
Proof.
  intros H. revert i. induction l as [|x l IH]; intros [|i]; cbn; try done; by rewrite ?H, ?IH.
Qed.

(** What a search for the first element that satisfies [c] finds and [update_first] changes. *)
Lemma update_first_spec {A} (c : A -> bool) (f : A -> A) l :
  match find c l with
  | Some x => c x = true /\ exists k, nth_error l k = Some x /\ update_first c f l = update_at k f l
  | None => (forall x, In x l -> c x = false) /\ update_first c f l = l
  end.
Proof.
  induction l as [|x l IH]; cbn; [done|]. destruct (c x) eqn:C.
  - split; [done|]. by exists 0.
  - destruct (find c l) as [y|].
    + destruct IH as (Cy & k & E & U). split; [done|]. exists (S k). cbn. by rewrite U.
    + destruct IH as [N U]. rewrite U. split; [|done]. intros z [<-|I]; auto.
Qed.
Lemma in_update_first {A} (c : A -> bool) (f : A -> A) l y :
  In y (update_first c f l) -> In y l \/ exists x, find c l = Some x /\ In x l /\ y = f x.
Proof.
  intros H. pose proof (update_first_spec c f l) as S. destruct (find c l) as [x|] eqn:E.
  - destruct S as (C & k & N & U). rewrite U in H. apply in_update_at in H as [H|(z & Z & ->)]; [by left|].
    right. exists x. rewrite N in Z. injection Z as <-. split; [done|]. split; [by eapply nth_error_In|done].
  - destruct S as [_ U]. rewrite U in H. by left.
Qed.
Lemma map_update_first {A B} (h : A -> B) (c : A -> bool) (f : A -> A) l :
  (forall x, h (f x) = h x) -> map h (update_first c f l) = map h l.
Proof. intros H. induction l as [|x l IH]; cbn; [done|]. destruct (c x); cbn; by rewrite ?H, ?IH. Qed.

Lemma nodup_snoc {A} (l : list A) x : List.NoDup l -> ~ In x l -> List.NoDup (l ++ [x]).
Proof.
  intros H N. induction H as [|y l Ny H IH]; cbn; [constructor; [by intros []|constructor]|]. constructor.
  - intros I. apply in_app_or in I as [I|[<-|[]]]; [done|]. apply N. by left.
  - apply IH. intros I. apply N. by right.
Qed.
Lemma find_id {A} (id : A -> N) l k x :
  List.NoDup (map id l) -> In x l -> id x = k -> find (fun y => id y =? k)%N l = Some x.
Proof.
  intros ND I E. induction l as [|y l IH]; [done|]. cbn in *. inversion ND as [|? ? N1 N2]; subst.
  destruct I as [->|I]; [by rewrite N.eqb_refl|].
  destruct (N.eqb_spec (id y) (id x)) as [Q|Q]; [|by apply IH]. exfalso. apply N1. rewrite Q. by apply in_map.
Qed.
Lemma find_id_some {A} (id : A -> N) l k x : find (fun y => id y =? k)%N l = Some x -> In x l /\ id x = k.
Proof. intros H. apply find_some in H as [I E]. split; [done|]. lia. Qed.

(** ** Groups and servers *)

(** What every group of the driver satisfies. *)
Record group_ok (g : group) : Prop := {
  go_ids : List.NoDup (map sv_id (gr_servers g));
  go_range : forall s, In s (gr_servers g) -> (1 <= sv_id s <= gr_latest g)%N;
  go_one : one_leader g;
  go_adv : advertised g;
  go_mem : advertises_member g }.
Record pd_ok (p : pd) : Prop := {
  po_ids : List.NoDup (map gr_id (pd_groups p));
  po_range : forall g, In g (pd_groups p) -> (1 <= gr_id g <= pd_latest p)%N;
  po_groups : forall g, In g (pd_groups p) -> group_ok g }.

Lemma pd_empty_ok : pd_ok pd_empty.
Proof. split; cbn; try done. constructor. Qed.
Lemma group_new_ok id : group_ok (group_new id).
Proof.
  split.
  - constructor.
  - intros s [].
  - intros i j s t E. by destruct i.
  - intros s [].
  - intros li E. discriminate E.
Qed.
Lemma create_group_ok p : pd_ok p -> pd_ok (create_group p).
Proof.
  intros [A B C]. split; cbn.
  - rewrite map_app. cbn. apply nodup_snoc; [done|].
    intros I. apply in_map_iff in I as (g & E & I). specialize (B g I). lia.
  - intros g I. apply in_app_or in I as [I|[<-|[]]]; [specialize (B g I); lia|cbn; lia].
  - intros g I. apply in_app_or in I as [I|[<-|[]]]; [by apply C|apply group_new_ok].
Qed.

Lemma existsb_leader l : existsb is_leader l = false -> forall s, In s l -> sv_role s = Follower.
Proof.
  intros H s I. destruct (sv_role s) eqn:E; [|done]. exfalso.
  assert (X : existsb is_leader l = true); [|congruence]. apply existsb_exists. exists s. split; [done|].
  unfold is_leader. by rewrite E.
Qed.

Lemma group_join_id now sa fa g : gr_id (fst (group_join now sa fa g)) = gr_id g.
Proof. done. Qed.
Lemma group_join_ok now sa fa g : group_ok g -> group_ok (fst (group_join now sa fa g)).
Proof.
  intros [A B C D E]. unfold group_join. cbn [fst].
  set (r := if existsb is_leader (gr_servers g) then Follower else Leader).
  set (s := Server (gr_latest g + 1) now r sa fa now). split; cbn.
  - rewrite map_app. cbn. apply nodup_snoc; [done|].
    intros I. apply in_map_iff in I as (t & Q & I). specialize (B t I). lia.
  - intros t I. apply in_app_or in I as [I|[<-|[]]]; [specialize (B t I); lia|cbn; lia].
  - intros i j t u Hi Hj Rt Ru. cbn in Hi, Hj.
    assert (L : existsb is_leader (gr_servers g) = true \/ forall v, In v (gr_servers g) -> sv_role v = Follower).
    { destruct (existsb is_leader (gr_servers g)) eqn:Q; [by left|right; by apply existsb_leader]. }
    assert (K : forall i t, nth_error (gr_servers g ++ [s]) i = Some t -> sv_role t = Leader ->
              (nth_error (gr_servers g) i = Some t /\ existsb is_leader (gr_servers g) = true) \/
              (i = length (gr_servers g) /\ existsb is_leader (gr_servers g) = false)).
    { clear -L. intros i t H R. destruct (Nat.lt_ge_cases i (length (gr_servers g))) as [Q|Q].
      - rewrite nth_error_app1 in H by done. destruct L as [L|L]; [by left|].
        apply nth_error_In in H. rewrite (L t H) in R. done.
      - rewrite nth_error_app2 in H by done. destruct (i - length (gr_servers g)) as [|k] eqn:Z.
        + injection H as <-. right. split; [lia|]. subst s r. cbn in R.
          destruct (existsb is_leader (gr_servers g)); done.
        + cbn in H. by destruct k. }
    destruct (K i t Hi Rt) as [[Pi Ei]|[Pi Ei]], (K j u Hj Ru) as [[Pj Ej]|[Pj Ej]]; try congruence.
    by apply (C i j t u).
  - intros t I R. cbn in I |- *. apply in_app_or in I as [I|[<-|[]]].
    + destruct (existsb is_leader (gr_servers g)) eqn:Q.
      * subst r. cbn. by apply D.
      * rewrite (existsb_leader _ Q t I) in R. done.
    + cbn in R. by rewrite R.
  - intros li. cbn. destruct r.
    + intros H. injection H as <-. exists s. split; [apply in_or_app; right; by left|]. done.
    + intros H. apply E in H as (t & I & Q). exists t. split; [apply in_or_app; by left|done].
Qed.

(** Replacing a group by another one with the same id. *)
Lemma update_group_ok p gid f :
  pd_ok p -> (forall g, group_ok g -> group_ok (f g)) -> (forall g, gr_id (f g) = gr_id g) ->
  pd_ok (Pd (pd_latest p) (update_first (fun g => gr_id g =? gid)%N f (pd_groups p))).
Proof.
  intros [A B C] F I. split; cbn.
  - by rewrite map_update_first.
  - intros g H. apply in_update_first in H as [H|(x & _ & H & ->)]; [by apply B|]. rewrite I. by apply B.
  - intros g H. apply in_update_first in H as [H|(x & _ & H & ->)]; [by apply C|]. apply F. by apply C.
Qed.
Lemma server_init_ok now gid sa fa p : pd_ok p -> pd_ok (fst (server_init now gid sa fa p)).
Proof.
  intros H. unfold server_init. destruct (find _ _); [|done]. cbn [fst].
  apply update_group_ok; [done|intros; by apply group_join_ok|done].
Qed.

Lemma beat_ok now sid g :
  group_ok g -> group_ok (with_servers (update_first (fun s => sv_id s =? sid)%N (with_beat now) (gr_servers g)) g).
Proof.
  intros [A B C D E]. split; cbn.
  - by rewrite map_update_first.
  - intros s I. apply in_update_first in I as [I|(x & _ & I & ->)]; [by apply B|by apply (B x)].
  - intros i j s t Hi Hj Rs Rt. cbn in Hi, Hj.
    pose proof (update_first_spec (fun s => sv_id s =? sid)%N (with_beat now) (gr_servers g)) as S.
    assert (K : forall i t, nth_error (update_first (fun s => sv_id s =? sid)%N (with_beat now) (gr_servers g)) i = Some t ->
              sv_role t = Leader -> exists t', nth_error (gr_servers g) i = Some t' /\ sv_role t' = Leader).
    { clear -S. intros i t H R. destruct (find _ _) as [x|].
      - destruct S as (_ & k & N & U). rewrite U, nth_update_at in H. destruct (Nat.eqb_spec i k) as [->|Q]; [|by exists t].
        rewrite N in H. injection H as <-. by exists x.
      - destruct S as [_ U]. rewrite U in H. by exists t. }
    destruct (K i s Hi Rs) as (s' & Hi' & Rs'), (K j t Hj Rt) as (t' & Hj' & Rt'). by apply (C i j s' t').
  - intros s I R. cbn in I |- *. apply in_update_first in I as [I|(x & _ & I & ->)]; [by apply D|]. by apply (D x).
  - intros li H. cbn in H |- *. destruct (E li H) as (s & I & Q).
    pose proof (update_first_spec (fun s => sv_id s =? sid)%N (with_beat now) (gr_servers g)) as S.
    destruct (find _ _) as [x|] eqn:F.
    + destruct S as (_ & k & N & U). rewrite U. apply In_nth_error in I as [i I].
      destruct (Nat.eqb_spec i k) as [->|Ne].
      * rewrite N in I. injection I as <-. exists (with_beat now x). split; [|done].
        apply (nth_error_In _ k). by rewrite nth_update_at, Nat.eqb_refl, N.
      * exists s. split; [|done]. apply (nth_error_In _ i). rewrite nth_update_at.
        destruct (Nat.eqb_spec i k); [done|]. exact I.
    + destruct S as [_ U]. rewrite U. by exists s.
Qed.
Lemma heartbeat_server_ok now gid sid p : pd_ok p -> pd_ok (fst (heartbeat_server now gid sid p)).
Proof.
  intros H. unfold heartbeat_server. destruct (find _ _); [|done]. destruct (find _ _); [|done]. cbn [fst].
  apply update_group_ok; [done|intros; by apply beat_ok|done].
Qed.
Lemma server_heartbeat_fst now st p :
  fst (server_heartbeat now st p) = fst (heartbeat_server now (st_group st) (st_server st) p).
Proof. unfold server_heartbeat. destruct (heartbeat_server _ _ _ _) as [p' [r|]]; done. Qed.

(** ** The survival check *)

Definition candidate (now : N) (s : server) : Prop := sv_role s = Follower /\ alive now s.
Lemma candidate_dec now s : beating now s && bool_decide (sv_role s = Follower) = true <-> candidate now s.
Proof.
  unfold beating, candidate, alive, dead_after. rewrite andb_true_iff, bool_decide_eq_true. split; intros [A B]; split; try done; lia.
Qed.

(** [a] is the best candidate of [l]. *)
Definition best (now : N) (l : list server) (a : option (nat * server)) : Prop :=
  match a with
  | None => forall s, In s l -> ~ candidate now s
  | Some (i, s) => nth_error l i = Some s /\ candidate now s /\
                   forall j t, nth_error l j = Some t -> candidate now t -> before i s j t
  end.
Lemma best_snoc now l a s :
  best now l a ->
  best now (l ++ [s])
    (if beating now s && bool_decide (sv_role s = Follower) then
       match a with
       | Some (_, b) => if (sv_join s <? sv_join b)%N then Some (length l, s) else a
       | None => Some (length l, s)
       end
     else a).
Proof.
  intros H. destruct (beating now s && _) eqn:C.
  - apply candidate_dec in C. assert (L : nth_error (l ++ [s]) (length l) = Some s).
    { rewrite nth_error_app2 by lia. by rewrite Nat.sub_diag. }
    assert (K : forall j t, nth_error (l ++ [s]) j = Some t -> nth_error l j = Some t \/ (j = length l /\ t = s)).
    { intros j t E. destruct (Nat.lt_ge_cases j (length l)) as [Q|Q].
      - rewrite nth_error_app1 in E by done. by left.
      - rewrite nth_error_app2 in E by done. destruct (j - length l) as [|k] eqn:Z; cbn in E.
        + injection E as <-. right. split; [lia|done].
        + by destruct k. }
    destruct a as [[i b]|]; cbn in H.
    + destruct H as (E & Cb & M). destruct (N.ltb_spec (sv_join s) (sv_join b)) as [Lt|Ge].
      * split; [done|]. split; [done|]. intros j t Ej Ct. destruct (K j t Ej) as [Ej'|[-> ->]].
        -- destruct (M j t Ej' Ct) as [X|[X _]]; left; lia.
        -- right. by split.
      * split; [rewrite nth_error_app1; [done|]; apply nth_error_Some; congruence|]. split; [done|].
        intros j t Ej Ct. destruct (K j t Ej) as [Ej'|[-> ->]]; [by apply M|].
        destruct (N.eq_dec (sv_join b) (sv_join s)) as [Q|Q]; [|left; lia]. right. split; [done|].
        assert (i < length l); [|lia]. apply nth_error_Some. congruence.
    + split; [done|]. split; [done|]. intros j t Ej Ct. destruct (K j t Ej) as [Ej'|[-> ->]].
      * exfalso. apply (H t); [|done]. by eapply nth_error_In.
      * right. by split.
  - assert (NC : ~ candidate now s). { intros X. apply candidate_dec in X. congruence. }
    destruct a as [[i b]|]; cbn in H |- *.
    + destruct H as (E & Cb & M). split; [rewrite nth_error_app1; [done|]; apply nth_error_Some; congruence|]. split; [done|].
      intros j t Ej Ct. destruct (Nat.lt_ge_cases j (length l)) as [Q|Q].
      * rewrite nth_error_app1 in Ej by done. by apply M.
      * rewrite nth_error_app2 in Ej by done. destruct (j - length l) as [|k]; cbn in Ej; [|by destruct k].
        injection Ej as <-. done.
    + intros t I. apply in_app_or in I as [I|[<-|[]]]; [by apply H|done].
Qed.
Lemma pick_best now r : forall l a, best now l a -> best now (l ++ r) (pick now (length l) a r).
Proof.
  induction r as [|s r IH]; intros l a H; cbn [pick]; [by rewrite app_nil_r|].
  replace (l ++ s :: r) with ((l ++ [s]) ++ r) by (by rewrite <- app_assoc).
  replace (S (length l)) with (length (l ++ [s])) by (rewrite app_length; cbn; lia).
  apply IH. by apply best_snoc.
Qed.
Lemma pick_spec now l : best now l (pick now 0 None l).
Proof. apply (pick_best now l [] None). intros s []. Qed.

Lemma with_role_same r s : same_but_role (with_role r s) s.
Proof. done. Qed.
Lemma same_refl s : same_but_role s s.
Proof. done. Qed.
Lemma Forall2_nth {A B} (R : A -> B -> Prop) l l' :
  length l = length l' -> (forall i x y, nth_error l i = Some x -> nth_error l' i = Some y -> R x y) -> Forall2 R l l'.
Proof.
  revert l'. induction l as [|x l IH]; intros [|y l'] L H; try done; constructor.
  - by apply (H 0).
  - apply IH; [by injection L|]. intros i. apply (H (S i)).
Qed.

(** What a group looks like after an election, when no server had the leader role before it. *)
Lemma elect_spec now g :
  (forall s, In s (gr_servers g) -> sv_role s = Follower) ->
  (exists i s, best now (gr_servers g) (Some (i, s)) /\
     elect now g = Group (gr_id g) (gr_latest g) (update_at i (with_role Leader) (gr_servers g)) (Some (info_of s))) \/
  (best now (gr_servers g) None /\ elect now g = g).
Proof.
  intros H. pose proof (pick_spec now (gr_servers g)) as P. unfold elect.
  destruct (pick now 0 None (gr_servers g)) as [[i s]|]; [left; by exists i, s|by right].
Qed.

(** The first half of the check: the leader, if it is dead, is demoted. *)
Definition demoted (now : N) (g : group) : group :=
  match find is_leader (gr_servers g) with
  | None => g
  | Some l => with_servers (update_first is_leader (with_role Follower) (gr_servers g)) g
  end.
Lemma check_cases now g :
  one_leader g ->
  (leader_alive now g /\ check_group now g = g) \/
  (~ leader_alive now g /\ check_group now g = elect now (demoted now g)).
Proof.
  intros O. unfold check_group, demoted.
  pose proof (update_first_spec is_leader (with_role Follower) (gr_servers g)) as S.
  destruct (find is_leader (gr_servers g)) as [l|] eqn:F.
  - destruct S as (C & k & E & U). unfold is_leader in C. apply bool_decide_eq_true in C.
    destruct (N.ltb_spec (dead_after + sv_beat l) now) as [D|D].
    + right. split; [|done]. intros (s & I & R & A). apply In_nth_error in I as [j I].
      assert (j = k) by (by apply (O j k s l)). subst. rewrite E in I. injection I as <-.
      unfold alive, dead_after in *. lia.
    + left. split; [|done]. exists l. split; [by eapply nth_error_In|]. split; [done|].
      unfold alive, dead_after in *. lia.
  - right. split; [|done]. destruct S as [S _]. intros (s & I & R & _). specialize (S s I). unfold is_leader in S.
    apply bool_decide_eq_false in S. done.
Qed.
Lemma demoted_spec now g :
  one_leader g ->
  gr_id (demoted now g) = gr_id g /\ gr_latest (demoted now g) = gr_latest g /\ gr_leader (demoted now g) = gr_leader g /\
  length (gr_servers (demoted now g)) = length (gr_servers g) /\
  (forall s, In s (gr_servers (demoted now g)) -> sv_role s = Follower) /\
  (forall i s t, nth_error (gr_servers (demoted now g)) i = Some s -> nth_error (gr_servers g) i = Some t ->
     s = with_role Follower t) /\
  map sv_id (gr_servers (demoted now g)) = map sv_id (gr_servers g).
Proof.
  intros O. unfold demoted.
  pose proof (update_first_spec is_leader (with_role Follower) (gr_servers g)) as S.
  assert (W : forall s, sv_role s = Follower -> s = with_role Follower s).
  { intros [] H. cbn in H. subst. done. }
  destruct (find is_leader (gr_servers g)) as [l|] eqn:F.
  - destruct S as (C & k & E & U). unfold is_leader in C. apply bool_decide_eq_true in C. cbn. rewrite !U.
    assert (P : forall i s, nth_error (update_at k (with_role Follower) (gr_servers g)) i = Some s ->
                exists t, nth_error (gr_servers g) i = Some t /\ s = with_role Follower t).
    { intros i s H. rewrite nth_update_at in H. destruct (Nat.eqb_spec i k) as [->|Q].
      - rewrite E in H. injection H as <-. by exists l.
      - exists s. split; [done|]. apply W. destruct (sv_role s) eqn:R; [|done]. exfalso. apply Q. by apply (O i k s l). }
    split; [done|]. split; [done|]. split; [done|]. split; [apply update_at_length|]. split; [|split].
    + intros s I. apply In_nth_error in I as [i I]. apply P in I as (t & _ & ->). done.
    + intros i s t H1 H2. apply P in H1 as (t' & H1 & ->). congruence.
    + by apply map_update_at.
  - destruct S as [S _].
    assert (A : forall s, In s (gr_servers g) -> sv_role s = Follower).
    { intros s I. specialize (S s I). unfold is_leader in S. apply bool_decide_eq_false in S. by destruct (sv_role s). }
    split; [done|]. split; [done|]. split; [done|]. split; [done|]. split; [done|]. split; [|done].
    intros i s t H1 H2. assert (s = t) by congruence. subst. apply W, A. by eapply nth_error_In.
Qed.

(** Who is the best candidate after the demotion. *)
Lemma demoted_candidates now g i s t :
  one_leader g -> ~ leader_alive now g ->
  nth_error (gr_servers (demoted now g)) i = Some s -> nth_error (gr_servers g) i = Some t ->
  candidate now s <-> candidate now t.
Proof.
  intros O NL H1 H2. destruct (demoted_spec now g O) as (_ & _ & _ & _ & _ & P & _).
  rewrite (P i s t H1 H2). unfold candidate, alive. cbn. split; intros [A B]; split; try done.
  destruct (sv_role t) eqn:R; [|done]. exfalso. apply NL. exists t. split; [by eapply nth_error_In|]. done.
Qed.
Lemma demoted_nth now g i s :
  one_leader g -> nth_error (gr_servers (demoted now g)) i = Some s ->
  exists t, nth_error (gr_servers g) i = Some t /\ s = with_role Follower t.
Proof.
  intros O H. destruct (demoted_spec now g O) as (_ & _ & _ & L & _ & P & _).
  destruct (nth_error (gr_servers g) i) as [t|] eqn:E; [exists t; split; [done|by apply (P i)]|].
  exfalso. apply nth_error_None in E. assert (i < length (gr_servers (demoted now g))) by (apply nth_error_Some; congruence). lia.
Qed.
Lemma demoted_nth' now g i t :
  one_leader g -> nth_error (gr_servers g) i = Some t ->
  nth_error (gr_servers (demoted now g)) i = Some (with_role Follower t).
Proof.
  intros O H. destruct (demoted_spec now g O) as (_ & _ & _ & L & _ & P & _).
  destruct (nth_error (gr_servers (demoted now g)) i) as [s|] eqn:E; [f_equal; by apply (P i)|].
  exfalso. apply nth_error_None in E. assert (i < length (gr_servers g)) by (apply nth_error_Some; congruence). lia.
Qed.
Lemma best_oldest now g i s :
  one_leader g -> ~ leader_alive now g -> best now (gr_servers (demoted now g)) (Some (i, s)) ->
  exists t, oldest now g i t /\ s = with_role Follower t.
Proof.
  intros O NL (E & C & M). destruct (demoted_nth now g i s O E) as (t & Et & ->).
  assert (Ct : candidate now t) by (by apply (demoted_candidates now g i _ t O NL E Et)).
  exists t. split; [|done]. split; [done|]. destruct Ct as [Ct1 Ct2]. split; [done|]. split; [done|].
  intros j u Eu Ru Au. pose proof (demoted_nth' now g j u O Eu) as Eu'.
  apply (M j _ Eu'). apply (demoted_candidates now g j _ u O NL Eu' Eu). done.
Qed.
Lemma oldest_unique now g i s j t : oldest now g i s -> oldest now g j t -> i = j /\ s = t.
Proof.
  intros (E & R & A & M) (E' & R' & A' & M'). specialize (M j t E' R' A'). specialize (M' i s E R A).
  assert (i = j) by (unfold before in *; lia). subst. split; [done|congruence].
Qed.
Lemma oldest_not_none now g i s :
  one_leader g -> ~ leader_alive now g -> best now (gr_servers (demoted now g)) None -> ~ oldest now g i s.
Proof.
  intros O NL B (E & R & A & _). pose proof (demoted_nth' now g i s O E) as E'.
  apply (B (with_role Follower s)); [by eapply nth_error_In|]. done.
Qed.

Lemma check_checked now g : one_leader g -> checked now g (check_group now g).
Proof.
  intros O. unfold checked. destruct (check_cases now g O) as [[LA ->]|[NL ->]].
  - split; [done|]. split; [done|]. split; [apply Forall2_nth; [done|]; intros i x y H1 H2; by assert (x = y) as -> by congruence|].
    split; [done|]. intros H. by exfalso.
  - destruct (demoted_spec now g O) as (D1 & D2 & D3 & D4 & D5 & D6 & D7).
    assert (SB : forall i x y, nth_error (gr_servers (demoted now g)) i = Some x -> nth_error (gr_servers g) i = Some y -> same_but_role x y).
    { intros i x y H1 H2. rewrite (D6 i x y H1 H2). done. }
    destruct (elect_spec now (demoted now g) D5) as [(i & s & B & ->)|[B ->]].
    + cbn [gr_id gr_latest gr_servers gr_leader].
      split; [done|]. split; [done|]. split.
      { apply Forall2_nth; [by rewrite update_at_length|]. intros j x y H1 H2. rewrite nth_update_at in H1.
        destruct (Nat.eqb j i); [|by apply (SB j)].
        destruct (nth_error (gr_servers (demoted now g)) j) as [z|] eqn:Z; [|done]. injection H1 as <-.
        apply (SB j z y Z H2). }
      split; [by intros X|]. intros _. destruct (best_oldest now g i s O NL B) as (t & Ot & ->). split.
      * intros j u Ou. destruct (oldest_unique now g i t j u Ot Ou) as [-> ->]. split; [done|].
        intros k v Hv. rewrite nth_update_at in Hv. destruct (Nat.eqb_spec k j) as [->|Q].
        -- destruct (nth_error _ j); [|done]. injection Hv as <-. by cbn.
        -- apply nth_error_In in Hv. rewrite (D5 v Hv). done.
      * intros N. by exfalso; apply (N i t).
    + split; [done|]. split; [done|]. split; [by apply Forall2_nth|]. split; [by intros X|]. intros _. split.
      * intros i s Os. by destruct (oldest_not_none now g i s O NL B).
      * intros _. split; [done|]. exact D5.
Qed.

Lemma member_same l l' li :
  Forall2 same_but_role l l' ->
  (exists s, In s l' /\ sv_id s = li_id li /\ sv_server s = li_server li /\ sv_forward s = li_forward li) ->
  exists s, In s l /\ sv_id s = li_id li /\ sv_server s = li_server li /\ sv_forward s = li_forward li.
Proof.
  intros F (s & I & A & B & C). induction F as [|x y l l' S F IH]; [done|].
  destruct I as [->|I].
  - exists x. destruct S as (S1 & S2 & S3 & S4 & S5). split; [by left|]. split; [congruence|]. split; congruence.
  - destruct (IH I) as (t & It & Q). exists t. split; [by right|done].
Qed.
Lemma same_ids l l' : Forall2 same_but_role l l' -> map sv_id l = map sv_id l'.
Proof. intros F. induction F as [|x y l l' (S & _) F IH]; cbn; [done|]. by rewrite S, IH. Qed.
Lemma check_group_ok now g : group_ok g -> group_ok (check_group now g).
Proof.
  intros [A B C D E]. destruct (check_checked now g C) as (I1 & I2 & F & _).
  pose proof (same_ids _ _ F) as Hids. 
  assert (X : one_leader (check_group now g) /\ advertised (check_group now g) /\ advertises_member (check_group now g)).
  { destruct (check_cases now g C) as [[_ ->]|[NL H]]; [done|]. rewrite H in *.
    destruct (demoted_spec now g C) as (D1 & D2 & D3 & D4 & D5 & D6 & D7).
    destruct (elect_spec now (demoted now g) D5) as [(i & s & (Es & _ & _) & Q)|[_ Q]]; rewrite Q in *.
    - assert (L : forall j v, nth_error (update_at i (with_role Leader) (gr_servers (demoted now g))) j = Some v ->
                sv_role v = Leader -> j = i /\ v = with_role Leader s).
      { intros j v Hv R. rewrite nth_update_at in Hv. destruct (Nat.eqb_spec j i) as [->|Ne].
        - rewrite Es in Hv. injection Hv as <-. done.
        - apply nth_error_In in Hv. rewrite (D5 v Hv) in R. done. }
      split; [|split].
      + intros j k u v Hu Hv Ru Rv. cbn in Hu, Hv. destruct (L j u Hu Ru), (L k v Hv Rv). congruence.
      + intros u Hu Ru. cbn in Hu |- *. apply In_nth_error in Hu as [j Hu]. destruct (L j u Hu Ru) as [_ ->]. done.
      + intros li Hli. cbn in Hli |- *. injection Hli as <-. exists (with_role Leader s). split; [|done].
        apply (nth_error_In _ i). by rewrite nth_update_at, Nat.eqb_refl, Es.
    - split; [|split].
      + intros j k u v Hu Hv Ru Rv. apply nth_error_In in Hu. rewrite (D5 u Hu) in Ru. done.
      + intros u Hu Ru. rewrite (D5 u Hu) in Ru. done.
      + intros li Hli. rewrite D3 in Hli. apply (member_same _ _ _ F). by apply E. }
  destruct X as (X1 & X2 & X3). split; [by rewrite Hids| |done|done|done].
  intros s I. rewrite I2. assert (H : In (sv_id s) (map sv_id (gr_servers g))).
  { rewrite <- Hids. by apply in_map. }
  apply in_map_iff in H as (t & <- & It). by apply B.
Qed.
Lemma check_group_id now g : gr_id (check_group now g) = gr_id g.
Proof.
  unfold check_group. destruct (find _ _); [destruct (_ <? _)%N; [|done]|]; unfold elect;
    by destruct (pick _ _ _ _) as [[]|].
Qed.
Lemma survival_check_ok now p : pd_ok p -> pd_ok (survival_check now p).
Proof.
  intros [A B C]. split; cbn.
  - rewrite map_map. erewrite map_ext; [exact A|]. intros g. apply check_group_id.
  - intros g I. apply in_map_iff in I as (h & <- & I). rewrite check_group_id. by apply B.
  - intros g I. apply in_map_iff in I as (h & <- & I). apply check_group_ok. by apply C.
Qed.

Lemma cstep_pd_ok ev c c' : cstep ev c = Some c' -> pd_ok (cl_pd c) -> pd_ok (cl_pd c').
Proof.
  destruct c as [p l]. intros H P. cbn [cl_pd] in P. destruct ev; cbn [cstep] in H.
  - injection H as <-. by apply create_group_ok.
  - pose proof (server_init_ok now gid sa fa p P) as Q. destruct (server_init now gid sa fa p) as [p' [st|]];
      injection H as <-; exact Q.
  - destruct (nth_error l i) as [n|]; [|done]. unfold node_beat in H. destruct (nd_beats n); [|done].
    destruct (nd_wait n); [done|].
    pose proof (server_heartbeat_fst now (nd_latest n) p) as F.
    pose proof (heartbeat_server_ok now (st_group (nd_latest n)) (st_server (nd_latest n)) p P) as Q. rewrite <- F in Q.
    destruct (server_heartbeat now (nd_latest n) p) as [p' o]. injection H as <-. exact Q.
  - destruct (at_node i _ l); [|done]. by injection H as <-.
  - destruct (at_node i _ l); [|done]. by injection H as <-.
  - injection H as <-. by apply survival_check_ok.
Qed.
Lemma csteps_pd_ok evs : forall c c', csteps evs c = Some c' -> pd_ok (cl_pd c) -> pd_ok (cl_pd c').
Proof.
  induction evs as [|ev evs IH]; intros c c' H P; cbn in H; [by injection H as <-|].
  destruct (cstep ev c) as [c1|] eqn:E; [|done]. apply (IH c1 c' H). by apply (cstep_pd_ok ev c).
Qed.
Lemma reached_pd_ok c : reached c -> pd_ok (cl_pd c).
Proof. intros [evs H]. apply (csteps_pd_ok evs cl_empty c H). apply pd_empty_ok. Qed.
