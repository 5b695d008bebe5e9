(** The process that sends a snapshot: C80 and C81. *)
From Verif Require Import BytesFacts SpecChild SerdeFacts.
Local Open Scope nat_scope.

(** ** C80: a snapshot of any size reaches the follower *)
Lemma write_all_out fuel cap dr : forall fill i buf out fill' i' ok, length buf <= fuel ->
  write_all fuel cap dr fill i buf = (out, fill', i', ok) ->
  (exists rest, buf = out ++ rest /\ (ok = true <-> rest = [])) /\ fill' <= fill + length out.
Proof.
  induction fuel as [|fuel IH]; intros fill i buf out fill' i' ok L; (destruct buf as [|b buf]; cbn [write_all]; [|try (cbn in L; lia)]).
  - intros E. injection E as <- <- <- <-. split; [by exists []|cbn; lia].
  - intros E. injection E as <- <- <- <-. split; [by exists []|cbn; lia].
  - unfold sock_write. destruct (Nat.leb_spec cap (fill - dr i)) as [C|C].
    + intros E. injection E as <- <- <- <-. split; [exists (b :: buf); done|cbn; lia].
    + set (n := min (cap - (fill - dr i)) (length (b :: buf))).
      destruct (write_all fuel cap dr (fill - dr i + n) (S i) (skipn n (b :: buf))) as [[[o f2] i2] k2] eqn:W.
      intros E. injection E as <- <- <- <-.
      assert (N : 1 <= n <= length (b :: buf)) by (unfold n; cbn [length]; lia).
      assert (L' : length (skipn n (b :: buf)) <= fuel) by (rewrite skipn_length; cbn [length] in *; lia).
      destruct (IH _ _ _ _ _ _ _ L' W) as ((rest & R1 & R2) & B).
      split; [exists rest; split; [rewrite <- app_assoc, <- R1; by rewrite firstn_skipn|done]|].
      rewrite app_length, firstn_length. lia.
Qed.
(** Whatever the network does, the follower gets a prefix of the snapshot; the process notices iff it is not all of it. *)
Theorem C80_prefix_partial (cap : nat) (dr : nat -> nat) (fill i : nat) (pieces : list bytes) (out : bytes) (ok : bool) :
  send_pieces cap dr fill i pieces = (out, ok) ->
  exists rest, concat pieces = out ++ rest /\ (ok = true <-> rest = []).
Proof.
  revert fill i out ok; induction pieces as [|p ps IH]; intros fill i out ok; cbn [send_pieces concat].
  - intros E. injection E as <- <-. by exists [].
  - destruct (write_all (length p) cap dr fill i p) as [[[o f1] i1] k] eqn:W.
    destruct (write_all_out _ _ _ _ _ _ _ _ _ _ (Nat.le_refl _) W) as ((rest & -> & R) & _).
    destruct k.
    + assert (rest = []) as -> by (by apply R). rewrite app_nil_r.
      destruct (send_pieces cap dr f1 i1 ps) as [o' ok'] eqn:S. intros E. injection E as <- <-.
      destruct (IH _ _ _ _ S) as (rest & -> & R'). exists rest. by rewrite app_assoc.
    + intros E. injection E as <- <-. exists (rest ++ concat ps). split; [by rewrite app_assoc|]. split; [done|].
      intros X. apply app_eq_nil in X as [X _]. by apply R in X.
Qed.
Print Assumptions C80_prefix_partial.
(** What fits into the buffer arrives. *)
Theorem C80_small_arrives_partial (cap : nat) (dr : nat -> nat) (pieces : list bytes) :
  length (concat pieces) <= cap -> send_pieces cap dr 0 0 pieces = (concat pieces, true).
Proof.
  assert (G : forall ps fill i, fill + length (concat ps) <= cap -> send_pieces cap dr fill i ps = (concat ps, true)).
  { induction ps as [|p ps IH]; intros fill i L; [done|]. cbn [send_pieces concat] in *. rewrite app_length in L.
    destruct (write_all (length p) cap dr fill i p) as [[[o f1] i1] k] eqn:W.
    destruct (write_all_out _ _ _ _ _ _ _ _ _ _ (Nat.le_refl _) W) as ((rest & E & R) & B).
    assert (K : k = true).
    { clear -W L. assert (L' : fill + length p <= cap) by lia. clear L.
      assert (X : forall fuel fill i buf, length buf <= fuel -> fill + length buf <= cap -> snd (write_all fuel cap dr fill i buf) = true).
      { clear. induction fuel as [|fuel IH]; intros fill i buf L F; (destruct buf as [|b buf]; cbn [write_all]; [done|try (cbn in L; lia)]).
        unfold sock_write. cbn [length] in *. destruct (Nat.leb_spec cap (fill - dr i)) as [C|C]; [lia|].
        destruct (write_all _ _ _ _ _ _) as [[[o f2] i2] k2] eqn:W. cbn [snd].
        change k2 with (snd (o, f2, i2, k2)). rewrite <- W. apply IH; rewrite skipn_length; cbn [length]; lia. }
      pose proof (X (length p) fill i p (Nat.le_refl _) L') as Y. by rewrite W in Y. }
    subst k. assert (rest = []) as -> by (by apply R). rewrite app_nil_r in E. subst o.
    rewrite IH by lia. done. }
  intros L. by apply G.
Qed.
Print Assumptions C80_small_arrives_partial.
(** But whatever the buffer's size, every snapshot that is larger is cut when the network does not take bytes out
    while it is being written. *)
Theorem C80_large_cut_refuted (cap : nat) (pieces : list bytes) :
  cap < length (concat pieces) -> send_pieces cap (fun _ => 0) 0 0 pieces = (firstn cap (concat pieces), false).
Proof.
  assert (W : forall fuel fill i buf, fill <= cap -> length buf <= fuel ->
    exists i', write_all fuel cap (fun _ => 0) fill i buf =
      (firstn (cap - fill) buf, fill + min (cap - fill) (length buf), i', length buf <=? cap - fill)).
  { induction fuel as [|fuel IH]; intros fill i buf F L; (destruct buf as [|b buf]; cbn [write_all]; [|try (cbn in L; lia)]).
    - exists i. rewrite firstn_nil, Nat.min_0_r, Nat.add_0_r. done.
    - exists i. rewrite firstn_nil, Nat.min_0_r, Nat.add_0_r. done.
    - rewrite Nat.sub_0_r. unfold sock_write. destruct (Nat.leb_spec cap fill) as [C|C].
      + exists (S i). replace (cap - fill) with 0 by lia. rewrite Nat.min_0_l, Nat.add_0_r. done.
      + set (n := min (cap - fill) (length (b :: buf))). assert (N : 1 <= n <= length (b :: buf)) by (unfold n; cbn [length]; lia).
        destruct (IH (fill + n) (S i) (skipn n (b :: buf))) as (i' & E); [unfold n; lia|rewrite skipn_length; cbn [length] in *; lia|].
        rewrite E. exists i'. rewrite skipn_length.
        assert (X : firstn n (b :: buf) ++ firstn (cap - (fill + n)) (skipn n (b :: buf)) = firstn (cap - fill) (b :: buf)).
        { rewrite <- (firstn_skipn n (b :: buf)) at 3. rewrite firstn_app, firstn_firstn, firstn_length.
          rewrite Nat.min_r by (unfold n; lia). do 2 f_equal. unfold n. lia. }
        assert (X2 : fill + n + min (cap - (fill + n)) (length (b :: buf) - n) = fill + n) by (unfold n; lia).
        assert (X3 : (length (b :: buf) - n <=? cap - (fill + n)) = (length (b :: buf) <=? cap - fill)).
        { destruct (Nat.leb_spec (length (b :: buf) - n) (cap - (fill + n))), (Nat.leb_spec (length (b :: buf)) (cap - fill)); unfold n in *; done || lia. }
        by rewrite X, X2, X3. }
  assert (G : forall ps fill i, fill <= cap -> cap < fill + length (concat ps) ->
    send_pieces cap (fun _ => 0) fill i ps = (firstn (cap - fill) (concat ps), false)).
  { induction ps as [|p ps IH]; intros fill i F L; [cbn in L; lia|]. cbn [send_pieces concat] in *. rewrite app_length in L.
    destruct (W (length p) fill i p F (Nat.le_refl _)) as (i' & ->).
    destruct (Nat.leb_spec (length p) (cap - fill)) as [C|C].
    - rewrite IH by lia. rewrite firstn_app, (firstn_all2 p) by lia. rewrite Nat.min_r by lia. do 3 f_equal. lia.
    - rewrite firstn_app. replace (cap - fill - length p) with 0 by lia. rewrite firstn_O, app_nil_r. done. }
  intros L. rewrite G by lia. by rewrite Nat.sub_0_r.
Qed.
Print Assumptions C80_large_cut_refuted.

(** A snapshot that was cut is not taken for a complete one: if a follower comes to the end of what it got, then
    it would have come to the same end with anything behind it. *)
Theorem C80_cut_is_noticed (s t : bytes) (l : list (N * dict)) :
  read_snapshot s = (l, true) -> read_snapshot (s ++ t) = (l, true).
Proof.
  unfold read_snapshot.
  assert (E16 : extends (get_option get_u16)) by (unfold get_option, get_u16; ext; apply ext_le).
  assert (G : forall f1 f2 s l, f1 <= f2 -> read_items f1 s = (l, true) -> read_items f2 (s ++ t) = (l, true)).
  { clear s l. induction f1 as [|f1 IH]; intros f2 s l L; cbn [read_items]; [done|]. destruct f2 as [|f2]; [lia|]. cbn [read_items].
    unfold read_item. destruct (get_option get_u16 s) as [[i|] s1| |] eqn:E; try done.
    - rewrite (E16 _ _ _ t E). destruct (get_dict s1) as [d s2| |] eqn:D; try done. rewrite (ext_dict _ _ _ t D).
      destruct (i <? slot_size)%N; [|done]. destruct (read_items f1 s2) as [l' e] eqn:R. intros H. injection H as <- ->.
      by rewrite (IH f2 s2 l' ltac:(lia) R).
    - by rewrite (E16 _ _ _ t E). }
  apply G. rewrite app_length. lia.
Qed.
Print Assumptions C80_cut_is_noticed.

(** The stream of an empty slot, written field by field into a buffer of 10 bytes that nobody empties, and into one
    out of which every write finds 4 bytes gone. *)
Definition c80_pieces : list bytes := [put_u8 1; put_u64 3; put_u64 7; put_u64 0; put_u8 0].
Example C80_case :
  concat c80_pieces = put_snapshot horder_default [(3%N, Dict 7 ∅)] /\ length (concat c80_pieces) = 26 /\
  send_pieces 10 (fun _ => 0) 0 0 c80_pieces = (firstn 10 (concat c80_pieces), false) /\
  send_pieces 10 (fun _ => 4) 0 0 c80_pieces = (concat c80_pieces, true) /\
  snd (read_snapshot (firstn 10 (concat c80_pieces))) = false /\
  snd (read_snapshot (concat c80_pieces)) = true.
Proof. repeat (split; [vm_compute; reflexivity|]). vm_compute. reflexivity. Qed.

(** ** C81: the table of processes *)
Lemma is_in_spec x l : is_in x l = true <-> In x l.
Proof.
  unfold is_in. rewrite existsb_exists. split; [intros (y & I & E); apply N.eqb_eq in E; by subst|]. intros I. exists x. by rewrite N.eqb_refl.
Qed.
Lemma is_in_false x l : is_in x l = false <-> ~ In x l.
Proof. rewrite <- is_in_spec. by destruct (is_in x l). Qed.
Lemma in_take_out x y l : List.NoDup l -> (In y (take_out x l) <-> In y l /\ y <> x).
Proof.
  induction 1 as [|z l N D IH]; cbn; [tauto|]. destruct (N.eqb_spec x z) as [->|E].
  - split; [|intros [[->|?] ?]; done]. intros I. split; [by right|]. intros ->. done.
  - cbn. rewrite IH. split; [intros [->|[? ?]]; [split; [by left|done]|split; [by right|done]]|]. intros [[->|?] ?]; [by left|by right].
Qed.
Lemma nodup_take_out x l : List.NoDup l -> List.NoDup (take_out x l).
Proof.
  induction 1 as [|z l N D IH]; cbn; [constructor|]. destruct (x =? z)%N; [done|]. constructor; [|done]. rewrite in_take_out by done. tauto.
Qed.
Lemma find_pid p (zs : list (N * bool)) : match find (fun z => (p =? fst z)%N) zs with Some (q, e) => q = p /\ In (p, e) zs | None => ~ In p (map fst zs) end.
Proof.
  induction zs as [|[q e] zs IH]; cbn; [tauto|]. destruct (N.eqb_spec p q) as [->|E]; [split; [done|by left]|].
  destruct (find _ zs) as [[q' e']|]; [destruct IH; split; [done|by right]|]. intros [X|X]; [congruence|done].
Qed.
Lemma in_others p q (zs : list (N * bool)) : In q (map fst (List.filter (fun z => negb (p =? fst z)%N) zs)) <-> In q (map fst zs) /\ q <> p.
Proof.
  rewrite !in_map_iff. setoid_rewrite filter_In. split.
  - intros ([a e] & <- & I & E). cbn in *. split; [by exists (a, e)|]. intros ->. by rewrite N.eqb_refl in E.
  - intros [([a e] & <- & I) E]. cbn in *. exists (a, e). split; [done|]. split; [done|]. cbn. destruct (N.eqb_spec p a); [congruence|done].
Qed.

Lemma NoDup_app_intro' (l : list N) (x : N) : List.NoDup l -> ~ In x l -> List.NoDup (l ++ [x]).
Proof.
  intros D N. induction D as [|y l I D IH]; cbn; [by repeat constructor|]. constructor; [|apply IH; cbn in N; tauto].
  rewrite in_app_iff. cbn. intros [X|[X|[]]]; [done|]. subst. apply N. by left.
Qed.
Lemma filter_all {A} (f : A -> bool) l : (forall x, In x l -> f x = true) -> List.filter f l = l.
Proof. induction l as [|x l IH]; cbn; [done|]. intros H. rewrite (H x) by (by left). f_equal. apply IH. intros y I. apply H. by right. Qed.

(** In orderly executions the table holds exactly the processes that exist for the kernel and have been entered. *)
Record kids_ok (k : kids) : Prop := {
  ko_live : List.NoDup (k_live k); ko_zs : List.NoDup (map fst (k_zombies k));
  ko_sep : forall p, In p (k_live k) -> ~ In p (map fst (k_zombies k));
  ko_new : List.NoDup (k_new k); ko_sub : forall p, In p (k_new k) -> exists_pid k p;
  ko_exit : forall p e, In (p, e) (k_zombies k) -> e = true;
  ko_tab : forall p, p ∈ k_tab k <-> exists_pid k p /\ ~ In p (k_new k) }.
Lemma kstep_ok ev k k' : kids_ok k ->
  match ev with KEnd _ e => e = true | KTurn p => ~ In p (k_new k) | _ => True end ->
  kstep ev k = Some k' -> kids_ok k'.
Proof.
  intros [A B C D E F G] O. destruct k as [live zs new tab]. unfold exists_pid in *. cbn [k_live k_zombies k_new k_tab] in *.
  destruct ev as [p|p|p e|p|]; cbn [kstep].
  - destruct (is_in p live) eqn:I1; [done|]. destruct (is_in p (map fst zs)) eqn:I2; [done|]. cbn [orb]. intros H. injection H as <-.
    apply is_in_false in I1, I2.
    assert (Np : ~ In p new) by (intros X; destruct (E p X); done).
    split; unfold exists_pid; cbn [k_live k_zombies k_new k_tab].
    + by constructor.
    + done.
    + intros q [<-|I]; [done|by apply C].
    + by constructor.
    + intros q [<-|I]; [left; by left|]. destruct (E q I); [left; by right|by right].
    + done.
    + intros q. rewrite G. split.
      * intros [[X|X] Y]; (split; [|intros [<-|Z]; done]); [left; by right|by right].
      * intros [[[<-|X]|X] Y]; [destruct Y; by left|split; [by left|intros Z; apply Y; by right]|split; [by right|intros Z; apply Y; by right]].
  - destruct (is_in p new) eqn:I1; [|done]. intros H. injection H as <-. apply is_in_spec in I1.
    split; unfold exists_pid; cbn [k_live k_zombies k_new k_tab]; try done.
    + by apply nodup_take_out.
    + intros q I. apply in_take_out in I as [I _]; [|done]. by apply E.
    + intros q. rewrite elem_of_union, elem_of_singleton, G, in_take_out by done. split.
      * intros [->|[X Y]]; [split; [by apply E|tauto]|split; [done|tauto]].
      * intros [X Y]. destruct (N.eq_dec q p) as [->|Q]; [by left|right]. split; [done|tauto].
  - destruct (is_in p live) eqn:I1; [|done]. intros H. injection H as <-. apply is_in_spec in I1. subst e.
    assert (X : forall q, (In q (take_out p live) \/ In q (map fst (zs ++ [(p, true)]))) <-> (In q live \/ In q (map fst zs))).
    { intros q. rewrite in_take_out, map_app, in_app_iff by done. cbn. destruct (N.eq_dec q p) as [->|Q]; [tauto|]. split; [|tauto].
      intros [[? ?]|[?|[?|[]]]]; [tauto|tauto|congruence]. }
    split; unfold exists_pid; cbn [k_live k_zombies k_new k_tab].
    + by apply nodup_take_out.
    + rewrite map_app. cbn. apply NoDup_app_intro'; [done|].
      by apply C.
    + intros q I. apply in_take_out in I as [I Q]; [|done]. rewrite map_app, in_app_iff. cbn. intros [Y|[Y|[]]]; [by apply (C q)|congruence].
    + done.
    + intros q I. apply X. by apply E.
    + intros q e I. apply in_app_or in I as [I|[I|[]]]; [by apply (F q)|congruence].
    + intros q. rewrite G. by rewrite X.
  - pose proof (find_pid p zs) as P. destruct (find _ zs) as [[q e]|]; [|done]. destruct P as [-> P].
    assert (Pf : In p (map fst zs)) by (by apply (in_map fst) in P).
    rewrite (F _ _ P). intros H. injection H as <-.
    split; unfold exists_pid; cbn [k_live k_zombies k_new k_tab].
    + done.
    + clear -B. induction zs as [|[q e] zs IH]; cbn in *; [done|]. inversion B as [|? ? N D]; subst. destruct (p =? q)%N; cbn; [by apply IH|].
      constructor; [|by apply IH]. rewrite in_others. tauto.
    + intros q I. rewrite in_others. intros [Y _]. by apply (C q).
    + done.
    + intros q I. destruct (E q I) as [X|X]; [by left|right]. apply in_others. split; [done|]. intros ->. done.
    + intros q e' I. apply filter_In in I as [I _]. by apply (F q).
    + intros q. rewrite elem_of_difference, elem_of_singleton, G, in_others. split.
      * intros [[[X|X] Y] Z]; tauto.
      * intros [[X|[X Z]] Y]; [|tauto]. split; [tauto|]. intros ->. by apply (C p).
  - destruct zs; [|done]. intros H. by injection H as <-.
Qed.
Theorem C81_table_exact_partial (evs : list kevent) (k : kids) (p : N) :
  orderly evs kids_empty -> ksteps evs kids_empty = Some k ->
  (p ∈ k_tab k <-> exists_pid k p /\ ~ In p (k_new k)).
Proof.
  intros O H. enough (K : kids_ok k) by (by apply (ko_tab _ K)).
  assert (G : forall evs j, kids_ok j -> orderly evs j -> ksteps evs j = Some k -> kids_ok k).
  { clear. induction evs as [|ev evs IH]; intros j J O H; cbn [ksteps] in H; [by injection H as <-|].
    destruct (kstep ev j) as [j'|] eqn:S; [|done]. cbn [orderly] in O. destruct O as [O1 O2]. apply (IH j'); [|by apply O2|done].
    by apply (kstep_ok ev j). }
  apply (G evs kids_empty); try done. split; cbn; try (by constructor); try done. intros q. unfold exists_pid. cbn. set_solver.
Qed.
Print Assumptions C81_table_exact_partial.

(** An entry that is left behind stays until the kernel uses the pid again. *)
Lemma stale_stays p evs : forall k k', ~ exists_pid k p -> p ∈ k_tab k -> ~ In (KFork p) evs -> ksteps evs k = Some k' -> p ∈ k_tab k' /\ ~ exists_pid k' p.
Proof.
  induction evs as [|ev evs IH]; intros k k' E T F H; cbn [ksteps] in H; [by injection H as <-|].
  destruct (kstep ev k) as [j|] eqn:S; [|done].
  assert (X : p ∈ k_tab j /\ ~ exists_pid j p); [|destruct X as [X1 X2]; apply (IH j k'); [done|done|intros Y; apply F; by right|done]].
  clear H IH. destruct k as [live zs new tab]. unfold exists_pid in *. cbn [k_live k_zombies k_tab] in *. destruct ev as [q|q|q e|q|]; cbn [kstep] in S.
  - destruct (_ || _); [done|]. injection S as <-. cbn [k_live k_zombies k_tab]. split; [done|]. intros [[->|X]|X]; [apply F; by left|tauto|tauto].
  - destruct (is_in q new); [|done]. injection S as <-. cbn [k_live k_zombies k_tab]. split; [set_solver|done].
  - destruct (is_in q live) eqn:I; [|done]. injection S as <-. cbn [k_live k_zombies k_tab]. apply is_in_spec in I. split; [done|].
    assert (T' : forall x, In x (take_out q live) -> In x live).
    { clear. induction live as [|y l IHl]; cbn; [done|]. destruct (q =? y)%N; [by right|]. intros x [<-|X]; [by left|right; by apply IHl]. }
    rewrite map_app, in_app_iff. cbn. intros [X|[X|[X|[]]]]; [apply E; left; by apply T'|tauto|subst q; tauto].
  - pose proof (find_pid q zs) as P. destruct (find _ zs) as [[q' e]|]; [|done]. destruct P as [-> P]. injection S as <-. cbn [k_live k_zombies k_tab].
    split; [|rewrite in_others; tauto]. destruct e; [|done]. rewrite elem_of_difference, elem_of_singleton. split; [done|]. intros ->. apply E. right. by apply (in_map fst) in P.
  - destruct zs; [|done]. injection S as <-. done.
Qed.
(** The claim is false: a process that ends before it is entered stays in the table, *)
Theorem C81_entered_too_late_refuted : exists evs k, ksteps evs kids_empty = Some k /\ Forall (fun ev => match ev with KEnd _ e => e = true | _ => True end) evs /\
  k_live k = [] /\ k_zombies k = [] /\
  forall evs' k', ~ In (KFork 7) evs' -> ksteps evs' k = Some k' -> 7%N ∈ k_tab k' /\ ~ exists_pid k' 7.
Proof.
  exists [KFork 7; KEnd 7 true; KTurn 7; KAdd 7]. eexists. split; [reflexivity|]. split; [by repeat constructor|]. split; [done|]. split; [done|].
  intros evs' k' F H. eapply stale_stays; [| |exact F|exact H]; [intros [[]|[]]|]. cbn. set_solver.
Qed.
Print Assumptions C81_entered_too_late_refuted.
(** and so does one that is killed. *)
Theorem C81_killed_refuted : exists evs k, ksteps evs kids_empty = Some k /\
  k_live k = [] /\ k_zombies k = [] /\
  forall evs' k', ~ In (KFork 7) evs' -> ksteps evs' k = Some k' -> 7%N ∈ k_tab k' /\ ~ exists_pid k' 7.
Proof.
  exists [KFork 7; KAdd 7; KEnd 7 false; KTurn 7]. eexists. split; [reflexivity|]. split; [done|]. split; [done|].
  intros evs' k' F H. eapply stale_stays; [| |exact F|exact H]; [intros [[]|[]]|]. cbn. set_solver.
Qed.
Print Assumptions C81_killed_refuted.
(** One turn of the loop waits for one process, so that they pile up when there are more than one snapshot per second. *)
Theorem C81_one_per_turn (evs : list kevent) (k : kids) :
  ksteps evs kids_empty = Some k -> ends evs <= length (k_zombies k) + turns evs.
Proof.
  assert (G : forall evs j, List.NoDup (k_live j) -> List.NoDup (map fst (k_zombies j)) -> (forall p, In p (k_live j) -> ~ In p (map fst (k_zombies j))) ->
    ksteps evs j = Some k -> length (k_zombies j) + ends evs <= length (k_zombies k) + turns evs).
  { clear evs. unfold ends, turns. induction evs as [|ev evs IH]; intros j A B C H; cbn [ksteps] in H; [injection H as <-; cbn; lia|].
    destruct (kstep ev j) as [j'|] eqn:S; [|done]. destruct j as [live zs new tab]. cbn [k_live k_zombies] in *.
    destruct ev as [p|p|p e|p|]; cbn [kstep] in S; cbn [List.filter].
    - destruct (is_in p live) eqn:I1; [done|]. destruct (is_in p (map fst zs)) eqn:I2; [done|]. injection S as <-. apply is_in_false in I1, I2.
      refine (IH _ _ _ _ H); cbn [k_live k_zombies]; [by constructor|done|]. intros q [<-|I]; [done|by apply C].
    - destruct (is_in p new); [|done]. injection S as <-. by refine (IH _ _ _ _ H).
    - destruct (is_in p live) eqn:I1; [|done]. apply is_in_spec in I1. injection S as <-. cbn [length].
      assert (X := fun a b c => IH _ a b c H). cbn [k_live k_zombies] in X. rewrite app_length in X. cbn [length] in X.
      enough (length zs + 1 + length (List.filter (fun ev => match ev with KEnd _ _ => true | _ => false end) evs) <=
        length (k_zombies k) + length (List.filter (fun ev => match ev with KTurn _ | KIdle => true | _ => false end) evs)) by lia.
      apply X.
      + by apply nodup_take_out.
      + rewrite map_app. cbn. apply NoDup_app_intro'; [done|]. by apply C.
      + intros q I. apply in_take_out in I as [I Q]; [|done]. rewrite map_app, in_app_iff. cbn. intros [Y|[Y|[]]]; [by apply (C q)|congruence].
    - destruct (find _ zs) as [[q e]|]; [|done]. injection S as <-. cbn [length].
      assert (X := fun a b c => IH _ a b c H). cbn [k_live k_zombies] in X.
      assert (L : length zs <= length (List.filter (fun z => negb (p =? fst z)%N) zs) + 1).
      { clear -B. induction zs as [|[q e] zs IH]; cbn in *; [lia|]. inversion B as [|? ? N D]; subst. destruct (N.eqb_spec p q) as [->|Q]; cbn; [|specialize (IH D); lia].
        rewrite filter_all; [lia|]. intros [a b] I. cbn. destruct (N.eqb_spec q a) as [->|]; [|done]. by apply (in_map fst) in I. }
      enough (length (List.filter (fun z => negb (p =? fst z)%N) zs) + length (List.filter (fun ev => match ev with KEnd _ _ => true | _ => false end) evs) <=
        length (k_zombies k) + length (List.filter (fun ev => match ev with KTurn _ | KIdle => true | _ => false end) evs)) by lia.
      apply X; [done| |].
      + clear -B. induction zs as [|[q e] zs IH]; cbn in *; [done|]. inversion B as [|? ? N D]; subst. destruct (p =? q)%N; cbn; [by apply IH|].
        constructor; [|by apply IH]. rewrite in_others. tauto.
      + intros q0 I. rewrite in_others. intros [Y _]. by apply (C q0).
    - destruct zs; [|done]. injection S as <-. cbn [length] in *. pose proof (IH (Kids live [] new tab) A B C H) as X. cbn [k_zombies length] in X. lia. }
  intros H. apply (G evs kids_empty); try done; cbn; try constructor.
Qed.
Print Assumptions C81_one_per_turn.
Definition c81_evs : list kevent := [KFork 5; KAdd 5; KFork 6; KAdd 6; KEnd 6 true; KFork 7; KEnd 5 true; KTurn 6; KAdd 7].
Example C81_case : orderly c81_evs kids_empty /\
  option_map (fun k => (k_live k, k_zombies k, k_new k, elements (k_tab k))) (ksteps c81_evs kids_empty) = Some ([7], [(5, true)], [], [7; 5])%N /\
  ends c81_evs = 2 /\ turns c81_evs = 1.
Proof.
  split; [|vm_compute; done]. cbn. repeat (split; [done || (intros [?|[]]; done)|]; intros ? H; injection H as <-; cbn). done.
Qed.
