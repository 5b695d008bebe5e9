(** C118: a client whose keys nobody else changes is served as if it were alone. *)
From Verif Require Export SpecAlone.
From Verif Require Import PropAnytime PropProcess PropLeader AnytimeFacts LeaderFacts FlushFacts PropFlush PropWhole PropTalk PropParts PropClients ClientsFacts.

(** ** Requests are about the keys they name *)
Lemma means_key_named en num t0 t1 q k y y' P : means_key en num t0 t1 q k y y' P -> named_keys q = [k].
Proof.
  intros M. destruct M; try done.
  all: try (match goal with H : list_meaning _ _ = Some _ |- _ => destruct q; try discriminate H; by injection H as -> _ end).
  all: try (match goal with H : hash_meaning _ _ _ = Some _ |- _ => destruct q; try discriminate H; by injection H as -> _ end).
  all: try (match goal with H : set_meaning_of _ = Some _ |- _ => destruct q; try discriminate H; by injection H as -> _ end).
  all: try (match goal with H : zquery _ _ _ _ |- _ => by destruct H | H : lquery _ _ _ _ |- _ => by destruct H | H : zremoval _ _ _ |- _ => by destruct H | H : lremoval _ _ _ |- _ => by destruct H end).
  all: try (match goal with H : setex_asks _ _ = Some _ |- _ => destruct q; try discriminate H; by injection H as -> _ _ end).
  all: try (match goal with H : counter_asks _ = Some _ |- _ => destruct q; try discriminate H; by injection H as -> _ end).
  all: try (match goal with H : expire_wants _ _ = Some _ |- _ => destruct q; try discriminate H; by injection H as -> _ _ end).
  all: try (match goal with H : works_on _ = Some _ |- _ => destruct q; try discriminate H; by injection H as -> _ end).
Qed.
Lemma fate_key_named en num t0 t1 q k y y' P : fate_key en num t0 t1 q k y y' P -> named_keys q = [k].
Proof.
  intros F. destruct F; try done; [by eapply means_key_named|..].
  all: match goal with H : two_asks _ _ _ _ _ |- _ => by destruct H end.
Qed.
Lemma means_key_looks en num t0 t1 q k y y' P : means_key en num t0 t1 q k y y' P -> looks q = true -> y' = y.
Proof.
  intros M L. destruct M; try done.
  all: try (match goal with H : list_meaning _ _ = Some _ |- _ => destruct q; try discriminate H; try discriminate L; injection H as _ <-; by cbn end).
  all: try (match goal with H : hash_meaning _ _ _ = Some _ |- _ => destruct q; try discriminate H; try discriminate L; injection H as _ <-; by cbn end).
  all: try (match goal with H : set_meaning_of _ = Some _ |- _ => destruct q; try discriminate H; try discriminate L; injection H as _ <-; by cbn end).
  all: try (match goal with H : zremoval _ _ _ |- _ => by destruct H | H : lremoval _ _ _ |- _ => by destruct H end).
  all: try (match goal with H : setex_asks _ _ = Some _ |- _ => destruct q; try discriminate H; discriminate L end).
  all: try (match goal with H : counter_asks _ = Some _ |- _ => destruct q; try discriminate H; discriminate L end).
  all: try (match goal with H : expire_wants _ _ = Some _ |- _ => destruct q; try discriminate H; discriminate L end).
Qed.
Lemma fate_key_looks en num t0 t1 q k y y' P : fate_key en num t0 t1 q k y y' P -> looks q = true -> y' = y.
Proof.
  intros F L. destruct F as [q k y y' P M|q k o rep s d T N O| | | | |]; try done; [by eapply means_key_looks|].
  assert (E : fst (two_step o s) = s); [|by rewrite E].
  assert (RD : match o with TRank _ _ | TRange _ _ _ _ | TRangeByScore _ _ _ | TRangeByLex _ _ _ => True | _ => False end).
  { clear -T L. inversion T; subst; try done.
    all: try (match goal with H : read_map _ ?r = Reads _ |- _ => destruct r; try discriminate H; injection H as <-; done end).
    all: by cbn in L. }
  by destruct o, s.
Qed.
Lemma fates_local en num t0 t1 q m m1 P n : fates en num t0 t1 q m m1 P -> (forall sync, q <> QFlushall sync) ->
  (forall k, In k (named_keys q) -> m k = n k) ->
  exists n1, fates en num t0 t1 q n n1 P /\ (forall k, In k (named_keys q) -> m1 k = n1 k) /\
    (forall k, ~ In k (named_keys q) -> m1 k = m k /\ n1 k = n k) /\ (looks q = true -> forall k, m1 k = m k).
Proof.
  intros F NF A.
  assert (KEY : forall k y Q, fate_key en num t0 t1 q k (m k) y Q -> m1 = update k y m ->
    (forall k', In k' (named_keys q) -> m1 k' = update k y n k') /\
    (forall k', ~ In k' (named_keys q) -> m1 k' = m k' /\ update k y n k' = n k') /\ (looks q = true -> forall k', m1 k' = m k')).
  { intros k y Q K ->. pose proof (fate_key_named _ _ _ _ _ _ _ _ _ K) as E. rewrite E. split; [|split].
    - intros k' [<-|[]]. unfold update. by rewrite !decide_True.
    - intros k' N. unfold update. rewrite !decide_False; [done|..]; intros ->; apply N; by left.
    - intros L k'. pose proof (fate_key_looks _ _ _ _ _ _ _ _ _ K L) as ->. unfold update. by destruct (decide _) as [->|]. }
  assert (SAME : m1 = m -> (forall k', In k' (named_keys q) -> m1 k' = n k') /\
    (forall k', ~ In k' (named_keys q) -> m1 k' = m k' /\ n k' = n k') /\ (looks q = true -> forall k', m1 k' = m k')).
  { intros ->. done. }
  destruct F as [q k m y P F|q m m' P M|s m|m|sub m H|sub m H|m|m].
  - exists (update k y n). split; [constructor; rewrite <- A; [done|]; rewrite (fate_key_named _ _ _ _ _ _ _ _ _ F); by left|]. by eapply KEY.
  - destruct M as [q k m y P M|q m f H|sub ps m H|sub ps m H|sync m].
    + exists (update k y n). split; [apply f_means; constructor; rewrite <- A; [done|]; rewrite (means_key_named _ _ _ _ _ _ _ _ _ M); by left|].
      eapply KEY; [by constructor|done].
    + exists n. split; [by apply f_means; constructor|by apply SAME].
    + exists n. split; [by apply f_means; constructor|by apply SAME].
    + exists n. split; [by apply f_means; constructor|by apply SAME].
    + by destruct (NF sync).
  - exists n. split; [constructor|by apply SAME].
  - exists n. split; [constructor|by apply SAME].
  - exists n. split; [by constructor|by apply SAME].
  - exists n. split; [by constructor|by apply SAME].
  - exists n. split; [constructor|by apply SAME].
  - exists n. split; [constructor|by apply SAME].
Qed.
(** What a request stores whatever the clock says. *)
Lemma puts_named t0 q m k v : puts t0 q m = Some (k, v) -> named_keys q = [k] /\ looks q = false.
Proof.
  intros H. destruct q; try discriminate H.
  all: try (match goal with H : puts _ (QDel ?l) _ = _ |- _ => destruct l as [|k' [|]]; try discriminate H; injection H as -> _; done end).
  all: cbn [puts setex_asks expire_wants] in H; repeat case_match; try discriminate H; injection H as <- _; done.
Qed.
Lemma puts_local t0 q m n : (forall k, In k (named_keys q) -> m k = n k) -> puts t0 q m = puts t0 q n.
Proof.
  intros A. destruct q; try done.
  all: cbn [puts setex_asks expire_wants]; assert (E : m k = n k) by (apply A; by left); by rewrite ?E.
Qed.

(** ** A client's own deeds, and the keys it speaks about *)
Lemma others_spare en num t0 t1 q m m1 P k : fates en num t0 t1 q m m1 P -> (forall sync, q <> QFlushall sync) -> ~ In k (may_change q) -> m1 k = m k.
Proof.
  intros F NF N. destruct (fates_local _ _ _ _ _ _ _ _ m F NF (fun _ _ => eq_refl)) as (n1 & _ & _ & O & L).
  unfold may_change in N. destruct (looks q); [by apply L|by apply O].
Qed.
(** Parts name the keys of the whole. *)
Lemma parts_named q p k : In p (parts q) -> (In k (named_keys p) -> In k (named_keys q)) /\ (In k (may_change p) -> In k (may_change q)) /\
  ((forall sync, q <> QFlushall sync) -> forall sync, p <> QFlushall sync).
Proof.
  assert (S : p = q -> (In k (named_keys p) -> In k (named_keys q)) /\ (In k (may_change p) -> In k (may_change q)) /\
    ((forall sync, q <> QFlushall sync) -> forall sync, p <> QFlushall sync)) by (intros ->; done).
  destruct q; try (intros [<-|[]]; by apply S).
  all: destruct ks as [|k0 ks]; [intros [<-|[]]; by apply S|]; intros I; apply in_map_iff in I as (k' & <- & I); cbn; repeat split; try done; intros [<-|[]]; exact I.
Qed.
Lemma fated_only_skip i s l f fs : sv_conn s <> i -> fated i (s :: l) (f :: fs) = fated i l fs.
Proof. intros N. destruct s as [c q cl]. rewrite fated_cons. cbn [sv_conn] in N. by rewrite (proj2 (Nat.eqb_neq c i)). Qed.
Lemma acts_only i l : acts i (did_itself i l) = acts i l.
Proof.
  unfold did_itself. induction l as [|d l IH]; [done|]. cbn [List.filter]. destruct (Nat.eqb_spec (doer d) i) as [E|E].
  - unfold acts in *. cbn [flat_map]. by rewrite IH.
  - rewrite IH. destruct d as [s|j s]; cbn [doer] in E; cbn [acts flat_map]; by rewrite (proj2 (Nat.eqb_neq _ i)).
Qed.
(** Deeds on keys other than [K] by others, on [K] by client [i]. *)
Definition apart (i : nat) (K : bytes -> Prop) (d : deed) : Prop :=
  match d with
  | Did s => if Nat.eqb (sv_conn s) i then forall k, In k (named_keys (sv_req s)) -> K k
             else (forall sync, sv_req s <> QFlushall sync) /\ forall k, In k (may_change (sv_req s)) -> ~ K k
  | Wiped j _ => j = i
  end.
Lemma replay_alone en num i K m l fs m' : replay en num m l fs m' -> Forall (apart i K) l -> forall n, (forall k, K k -> m k = n k) ->
  exists fs' n', replay en num n (did_itself i l) fs' n' /\ (forall k, K k -> m' k = n' k) /\ fated i (dids (did_itself i l)) fs' = fated i (dids l) fs.
Proof.
  induction 1 as [m|s l m m1 P r rs m2 NF F R DC _ IH|s sync l m rs m2 Q _ IH|j s l m rs m2 _ IH]; intros AP n A.
  - exists [], n. split; [constructor|]. done.
  - apply List.Forall_cons_iff in AP as [D AP]. unfold did_itself. cbn [List.filter doer dids]. fold (did_itself i l). cbn [apart] in D.
    destruct (Nat.eqb_spec (sv_conn s) i) as [E|E].
    + destruct (fates_local _ _ _ _ _ _ _ _ (later (sv_clock s 1%nat) n) F NF) as (n1 & F' & L1 & L2 & _).
      { intros k I. unfold later. by rewrite A by by apply D. }
      destruct (IH AP (lasting (sv_clock s 0%nat) (sv_clock s 1%nat) (sv_req s) n n1)) as (fs' & n' & I1 & I2 & I3).
      { intros k KK. unfold lasting. rewrite (puts_local _ _ (later (sv_clock s 1%nat) m) (later (sv_clock s 1%nat) n)).
        2:{ intros k' I. unfold later. by rewrite A by by apply D. }
        assert (E1 : m1 k = n1 k).
        { destruct (in_dec (list_eq_dec Byte.byte_eq_dec) k (named_keys (sv_req s))) as [I|I]; [by apply L1|]. destruct (L2 k I) as [-> ->]. unfold later. by rewrite A. }
        unfold later at 1 3. rewrite E1, A by done. done. }
      exists (r :: fs'), n'. split; [|split; [done|]].
      * econstructor; [done|exact F'|done| |exact I1]. intros k Q. rewrite (DC k Q), A; [done|]. apply D. rewrite Q. by left.
      * cbn [dids]. destruct s as [c q cl]. by rewrite !fated_cons, I3.
    + destruct D as [_ D]. destruct (IH AP n) as (fs' & n' & I1 & I2 & I3).
      { intros k KK. rewrite <- A by done. unfold lasting.
        assert (E1 : m1 k = later (sv_clock s 1%nat) m k) by (eapply others_spare; [exact F|done|]; intros I; by eapply D).
        assert (E2 : later (sv_clock s 1%nat) m1 k = later (sv_clock s 1%nat) m k).
        { transitivity (later (sv_clock s 1%nat) (later (sv_clock s 1%nat) m) k); [unfold later at 1 2; by rewrite E1|]. apply later_later. lia. }
        rewrite E2. assert (NP : match puts (sv_clock s 0%nat) (sv_req s) (later (sv_clock s 1%nat) m) with Some (k', v) => if decide (k = k') then v else m k | None => m k end = m k).
        { destruct (puts _ _ _) as [[k' v]|] eqn:PU; [|done]. destruct (decide (k = k')) as [->|]; [|done].
          destruct (puts_named _ _ _ _ _ PU) as [PN PL]. destruct (D k'); [|done]. unfold may_change. rewrite PL, PN. by left. }
        rewrite NP. unfold later. destruct (m k) as [[x d]|]; [|done]. unfold while_alive. by destruct (decide (lives _ d)). }
      exists fs', n'. rewrite fated_only_skip by done. done.
  - apply List.Forall_cons_iff in AP as [D AP]. unfold did_itself. cbn [List.filter doer dids]. fold (did_itself i l). cbn [apart] in D.
    destruct (Nat.eqb_spec (sv_conn s) i) as [E|E]; [|destruct D as [D _]; by destruct (D sync)].
    destruct (IH AP n A) as (fs' & n' & I1 & I2 & I3). exists (inl frame_ok :: fs'), n'. split; [by eapply replay_flushed|]. split; [done|].
    cbn [dids]. destruct s as [c q cl]. by rewrite !fated_cons, I3.
  - apply List.Forall_cons_iff in AP as [D AP]. cbn [apart] in D. subst j. unfold did_itself. cbn [List.filter doer dids]. fold (did_itself i l). rewrite Nat.eqb_refl.
    destruct (IH AP (without_slot s n)) as (fs' & n' & I1 & I2 & I3). { intros k KK. unfold without_slot. by rewrite A. }
    exists fs', n'. split; [by constructor|]. done.
Qed.
Lemma deeds_apart n i K l : Forall (fun d => doer d < n) l ->
  (forall j, j < n -> exists qs more, flat_map script (flat_map parts qs) = acts j l ++ more /\ (j = i -> within K qs) /\ (j <> i -> spares K qs)) ->
  Forall (apart i K) l.
Proof.
  intros DO AC. apply List.Forall_forall. intros d D. rewrite List.Forall_forall in DO. destruct (AC (doer d) (DO d D)) as (qs & more & M & AI & AJ).
  assert (IN : In (match d with Did s => inl (sv_req s) | Wiped _ s => inr s end) (flat_map script (flat_map parts qs))).
  { rewrite M. apply in_or_app. left. unfold acts. apply in_flat_map. exists d. split; [done|]. destruct d as [s|j s]; cbn [doer]; rewrite Nat.eqb_refl; by left. }
  apply in_flat_map in IN as (p & IN & S). apply in_flat_map in IN as (q & IN & PQ).
  assert (SC : forall a, In (inl a) (script p) -> a = p).
  { intros a I. destruct p; try (destruct I as [[= <-]|[]]; done). unfold script in I. apply in_app_or in I as [I|[[= <-]|[]]]; [|done]. apply in_map_iff in I as (? & ? & _). done. }
  assert (SW : forall a, In (inr a) (script p) -> exists sync, p = QFlushall sync).
  { intros a I. destruct p; try (destruct I as [?|[]]; done). by eexists. }
  destruct d as [s|j s]; cbn [doer apart] in *.
  - apply SC in S. rewrite S. destruct (Nat.eqb_spec (sv_conn s) i) as [E|E].
    + intros k KK. apply (AI E q k IN). by apply (parts_named q p k PQ).
    + destruct (AJ E q IN) as [U1 U2]. split; [by apply (parts_named q p [] PQ)|]. intros k KK. apply U2. by apply (parts_named q p k PQ).
  - destruct (SW _ S) as [sync ->]. destruct (decide (j = i)) as [|E]; [done|]. destruct (AJ E q IN) as [U1 _].
    destruct (parts_named q _ [] PQ) as (_ & _ & P3). by destruct (P3 U1 sync).
Qed.

(** * A client whose keys nobody else changes is served as if it were alone, whatever the others do and whatever the clock shows: its
      replies, and what is stored under keys that only it changes, are those of the machine that is given this client's requests only. *)
Theorem C118_alone : exists num, reads_counters num /\ forall en b m ins evs x i k K,
  horder_ok (e_ho en) -> holds b m -> orderly m -> Forall (Forall separable) ins -> csteps en evs (cs_start b ins) = Some x ->
  undisturbed ins i K -> cs_conns x !! i = Some k ->
  exists l fs m', replay en num m l fs m' /\ Forall (fun d => doer d = i) l /\
    (forall key, K key -> db_contents (cs_db x) key = m' key) /\
    exists qs rest ps,
      nth i ins [] = qs ++ rest /\ merged qs ps (k_out k) /\ (exists last, fated i (dids l) fs = map inl ps ++ last) /\
      (exists more, flat_map script (flat_map parts (nth i ins [])) = acts i l ++ more) /\
      (k_pc k = KIdle -> rest = k_in k /\ fated i (dids l) fs = map inl ps /\ acts i l = flat_map script (flat_map parts qs)).
Proof.
  destruct C117_clients as (num & RC & C). exists num. split; [done|]. intros en b m ins evs x i k K HO S OR A H [U1 U2] KX.
  destruct (C en b m ins evs x HO S OR A H) as (l & fs & m' & R & _ & SH & DO & EX).
  destruct (replay_alone en num i K m l fs m' R) with (n := m) as (fs' & n' & R1 & R2 & R3); [|done|].
  { eapply deeds_apart; [exact DO|]. intros j J.
    assert (LJ : j < length (cs_conns x)) by (rewrite (csteps_length en evs _ x H); cbn [cs_start cs_conns]; by rewrite map_length).
    apply lookup_lt_is_Some in LJ as [kj KJ]. destruct (EX j kj KJ) as (_ & _ & _ & _ & _ & _ & (more & M) & _).
    exists (nth j ins []), more. split; [done|]. split; [by intros ->|by apply U2]. }
  exists (did_itself i l), fs', n'. split; [done|]. split; [|split].
  - apply List.Forall_forall. intros d D. apply filter_In in D as [_ D]. by apply Nat.eqb_eq.
  - intros key KK. rewrite <- R2 by done. apply SH.
  - destruct (EX i k KX) as (qs & rest & ps & E). exists qs, rest, ps. by rewrite R3, acts_only.
Qed.
Print Assumptions C118_alone.

(** ** With background tasks *)
Lemma play_alone en num i K m l fs m' : play en num m l fs m' -> Forall (apart i K) l -> forall t n, forward t (dids l) ->
  (forall u k, (t <= u)%N -> K k -> later u m k = later u n k) ->
  exists fs' n', play en num n (did_itself i l) fs' n' /\
    (forall u k, (List.last (map (fun s => sv_clock s 1%nat) (dids l)) t <= u)%N -> K k -> later u m' k = later u n' k) /\
    fated i (dids (did_itself i l)) fs' = fated i (dids l) fs.
Proof.
  induction 1 as [m|s l m m1 P r rs m2 NF F R _ IH|s sync l m rs m2 Q _ IH|j s l m rs m2 _ IH]; intros AP t n FO A.
  - exists [], n. split; [constructor|]. done.
  - apply List.Forall_cons_iff in AP as [D AP]. cbn [dids map] in FO |- *. inversion FO as [|? ? F1 F2]; subst. inversion F2 as [|? ? L1 L2]; subst. rewrite last_shift.
    unfold did_itself. cbn [List.filter doer]. fold (did_itself i l). cbn [apart] in D.
    destruct (Nat.eqb_spec (sv_conn s) i) as [E|E].
    + destruct (fates_local _ _ _ _ _ _ _ _ (later (sv_clock s 1%nat) n) F NF) as (n1 & F' & K1 & K2 & _).
      { intros k I. apply A; [lia|by apply D]. }
      destruct (IH AP (sv_clock s 1%nat) n1) as (fs' & n' & I1 & I2 & I3); [done| |].
      { intros u k UU KK. assert (E1 : m1 k = n1 k); [|unfold later; by rewrite E1].
        destruct (in_dec (list_eq_dec Byte.byte_eq_dec) k (named_keys (sv_req s))) as [I|I]; [by apply K1|]. destruct (K2 k I) as [-> ->]. by apply A; [lia|]. }
      exists (r :: fs'), n'. split; [by econstructor|]. split; [done|]. destruct s as [c q cl]. cbn [dids]. by rewrite !fated_cons, I3.
    + destruct D as [_ D]. destruct (IH AP (sv_clock s 1%nat) n) as (fs' & n' & I1 & I2 & I3); [done| |].
      { intros u k UU KK. rewrite <- A by (done || lia).
        assert (E1 : m1 k = later (sv_clock s 1%nat) m k) by (eapply others_spare; [exact F|done|]; intros I; by eapply D).
        transitivity (later u (later (sv_clock s 1%nat) m) k); [unfold later at 1 2; by rewrite E1|]. by apply later_later. }
      exists fs', n'. rewrite fated_only_skip by done. done.
  - apply List.Forall_cons_iff in AP as [D AP]. cbn [dids map] in FO |- *. inversion FO as [|? ? F1 F2]; subst. inversion F2 as [|? ? L1 L2]; subst. rewrite last_shift.
    unfold did_itself. cbn [List.filter doer]. fold (did_itself i l). cbn [apart] in D.
    destruct (Nat.eqb_spec (sv_conn s) i) as [E|E]; [|destruct D as [D _]; by destruct (D sync)].
    destruct (IH AP (sv_clock s 1%nat) n) as (fs' & n' & I1 & I2 & I3); [done|intros u k UU KK; apply A; [lia|done]|].
    exists (inl frame_ok :: fs'), n'. split; [by eapply play_flushed|]. split; [done|]. destruct s as [c q cl]. cbn [dids]. by rewrite !fated_cons, I3.
  - apply List.Forall_cons_iff in AP as [D AP]. cbn [apart] in D. subst j. unfold did_itself. cbn [List.filter doer dids] in *. fold (did_itself i l). rewrite Nat.eqb_refl.
    destruct (IH AP t (without_slot s n)) as (fs' & n' & I1 & I2 & I3); [done| |].
    { intros u k UU KK. unfold later, without_slot. destruct (decide _); [done|]. exact (A u k UU KK). }
    exists fs', n'. split; [by constructor|]. done.
Qed.
(** * The same in a whole server with its background tasks, while the clock does not step back. *)
Theorem C118_server : exists num, reads_counters num /\ forall en b m ins evs x i k K,
  horder_ok (e_ho en) -> shows 0 b m -> orderly m -> Forall (Forall separable) ins ->
  leader_steps en evs (leader_start b ins) = Some x -> StronglySorted N.le (map fst evs) ->
  undisturbed ins i K -> cs_conns (ld_cl x) !! i = Some k ->
  exists l fs m' t, play en num m l fs m' /\ Forall (fun d => doer d = i) l /\
    (forall u key, (t <= u)%N -> K key -> db_view u (cs_db (ld_cl x)) key = later u m' key) /\
    exists qs rest ps,
      nth i ins [] = qs ++ rest /\ merged qs ps (k_out k) /\ (exists last, fated i (dids l) fs = map inl ps ++ last) /\
      (exists more, flat_map script (flat_map parts (nth i ins [])) = acts i l ++ more) /\
      (k_pc k = KIdle -> rest = k_in k /\ fated i (dids l) fs = map inl ps /\ acts i l = flat_map script (flat_map parts qs)).
Proof.
  destruct C112_clients as (num & RC & C). exists num. split; [done|]. intros en b m ins evs x i k K HO S OR A H T [U1 U2] KX.
  destruct (C en b m ins evs x HO S OR A H T) as (l & fs & m' & t & R & SH & FO & DO & EX).
  destruct (C112_one_more_client en b ins evs x H T) as (keys & evs' & y & replies & H' & _ & _ & _ & CO).
  destruct (play_alone en num i K m l fs m' R) with (t := 0%N) (n := m) as (fs' & n' & R1 & R2 & R3); [|done|done|].
  { eapply deeds_apart; [exact DO|]. intros j J.
    assert (LJ : j < length (cs_conns (ld_cl x))).
    { pose proof (csteps_length en evs' _ y H') as L. rewrite CO in L. cbn [cs_start cs_conns] in L. rewrite map_length, !app_length in L. cbn in L. lia. }
    apply lookup_lt_is_Some in LJ as [kj KJ]. destruct (EX j kj KJ) as (_ & _ & _ & _ & _ & _ & (more & M) & _).
    exists (nth j ins []), more. split; [done|]. split; [by intros ->|by apply U2]. }
  exists (did_itself i l), fs', n', (N.max t (List.last (map (fun s => sv_clock s 1%nat) (dids l)) 0%N)). split; [done|]. split; [|split].
  - apply List.Forall_forall. intros d D. apply filter_In in D as [_ D]. by apply Nat.eqb_eq.
  - intros u key UU KK. rewrite SH by lia. apply R2; [lia|done].
  - destruct (EX i k KX) as (qs & rest & ps & E). exists qs, rest, ps. by rewrite R3, acts_only.
Qed.
Print Assumptions C118_server.

(** * The same for a whole process, from the bytes that arrive on sockets to the bytes that leave on them. *)
Theorem C118_bytes : exists num, reads_counters num /\ forall en b m max evs x i s (K : bytes -> Prop),
  horder_ok (e_ho en) -> shows 0 b m -> orderly m -> psteps en evs (pr_start b max) = Some x -> StronglySorted N.le (map fst evs) ->
  (forall j q, was_asked evs j q -> separable q) -> (forall q k, was_asked evs i q -> In k (named_keys q) -> K k) ->
  (forall j q, j <> i -> was_asked evs j q -> (forall sync, q <> QFlushall sync) /\ forall k, In k (may_change q) -> ~ K k) ->
  pr_socks x !! i = Some s ->
  exists l fs m' t, play en num m l fs m' /\ Forall (fun d => doer d = i) l /\
    (forall u key, (t <= u)%N -> K key -> db_view u (cs_db (ld_cl (pr_ld x))) key = later u m' key) /\
    exists served rest qs more ps rs cut,
      fst (conn_requests (arrived i evs)) = served ++ rest /\ Forall2 (fun f q => from_frame f = Some q) served (qs ++ more) /\
      merged qs ps rs /\ so_out s = concat (map write rs) ++ cut /\ (cut <> [] -> failed i evs) /\
      (exists last, fated i (dids l) fs = map inl ps ++ last) /\ (exists future, flat_map script (flat_map parts (qs ++ more)) = acts i l ++ future) /\
      (waits en x i -> rest = [] /\ more = [] /\ cut = [] /\ fated i (dids l) fs = map inl ps /\ acts i l = flat_map script (flat_map parts qs)).
Proof.
  destruct C113_bytes as (num & RC & C). exists num. split; [done|]. intros en b m max evs x i s K HO S OR H T SP WI OT KX.
  destruct (C en b m max evs x HO S OR H T) as (l & fs & m' & t & R & SH & FO & DO & EX); [intros j f q F1 F2; apply (SP j q); by exists f|].
  assert (AS : forall j served rest qs, fst (conn_requests (arrived j evs)) = served ++ rest -> Forall2 (fun f q => from_frame f = Some q) served qs -> forall q, In q qs -> was_asked evs j q).
  { intros j served rest qs E F q Q. apply elem_of_list_In, elem_of_list_lookup in Q as (n & Q). destruct (Forall2_lookup_r _ _ _ _ _ F Q) as (f & Fn & E').
    exists f. split; [|done]. rewrite E. apply in_or_app. left. apply elem_of_list_In. by eapply elem_of_list_lookup_2. }
  destruct (play_alone en num i K m l fs m' R) with (t := 0%N) (n := m) as (fs' & n' & R1 & R2 & R3); [|done|done|].
  { eapply deeds_apart; [exact DO|]. intros j J. apply lookup_lt_is_Some in J as [sj SJ].
    destruct (EX j sj SJ) as (served & rest & qs & more & ps & rs & cut & E1 & E2 & _ & _ & _ & _ & (future & M) & _).
    exists (qs ++ more), future. split; [done|]. split.
    - intros -> q k Q KK. eapply WI; [by eapply AS|done].
    - intros N q Q. apply (OT j q N). by eapply AS. }
  exists (did_itself i l), fs', n', (N.max t (List.last (map (fun s => sv_clock s 1%nat) (dids l)) 0%N)). split; [done|]. split; [|split].
  - apply List.Forall_forall. intros d D. apply filter_In in D as [_ D]. by apply Nat.eqb_eq.
  - intros u key UU KK. rewrite SH by lia. apply R2; [lia|done].
  - destruct (EX i s KX) as (served & rest & qs & more & ps & rs & cut & E1 & E2 & E3 & E4 & E5 & E6 & E7 & _ & E8).
    exists served, rest, qs, more, ps, rs, cut. rewrite R3, acts_only. do 7 (split; [done|]). intros W. destruct (E8 W) as (W1 & W2 & W3 & W4 & W5 & _). done.
Qed.
Print Assumptions C118_bytes.

(** ** Concrete cases *)
(** Two clients: the second looks at the key of the first and increments its own. The first is served as if it were alone; for the second,
    whose GET depends on the first, this is not claimed. *)
Definition c118_ins : list (list request) := [[QSetex cl_a 10 (SBytes (bs "x")); QGet cl_a]; [QGet cl_a; QIncr (bs "own")]].
Definition c118_evs : list (nat * N) :=
  repeat (1%nat, 1000%N) 2 ++ repeat (0%nat, 1000%N) 4 ++ repeat (1%nat, 1001%N) 4 ++ repeat (0%nat, 1002%N) 5 ++ repeat (1%nat, 1003%N) 5 ++ repeat (0%nat, 1004%N) 3.
Lemma c118_undisturbed : undisturbed c118_ins 0 (eq cl_a).
Proof.
  split; [intros q k [<-|[<-|[]]] [<-|[]]; done|]. intros j J q IN. destruct j as [|[|j]]; [done| |destruct j; by destruct IN].
  destruct IN as [<-|[<-|[]]]; (split; [done|]); [by intros k []|]. intros k [<-|[]] E. by vm_compute in E.
Qed.
Example C118_alone_case : Forall (Forall separable) c118_ins /\ undisturbed c118_ins 0 (eq cl_a) /\
  option_map (fun x => map (fun k => (k_in k, k_pc k, k_out k)) (cs_conns x)) (csteps ex_env c118_evs (cs_start db_empty c118_ins)) =
    Some [([], KIdle, [frame_ok; FBulk (bs "x")]); ([], KIdle, [FNull; FInteger 1])].
Proof. split; [by repeat constructor|]. split; [exact c118_undisturbed|]. vm_compute. reflexivity. Qed.
(** The same with a scan of the expiry queue among them. *)
Definition c118_turns : list (N * turn) :=
  map (fun e => (snd e, LConn (fst e))) c118_evs ++ [(1005%N, LRecv)].
Example C118_server_case : StronglySorted N.le (map fst c118_turns) /\
  option_map (fun x => map (fun k => (k_in k, k_pc k, k_out k)) (cs_conns (ld_cl x))) (leader_steps ex_env c118_turns (leader_start db_empty c118_ins)) =
    Some [([], KIdle, [frame_ok; FBulk (bs "x")]); ([], KIdle, [FNull; FInteger 1])].
Proof. split; [|vm_compute; reflexivity]. cbn. repeat constructor; lia. Qed.
(** The condition is needed: where the second client deletes the key, the first does not find what it stored. *)
Definition c118_del_ins : list (list request) := [[QSetex cl_a 10 (SBytes (bs "x")); QGet cl_a]; [QDel [cl_a]]].
Example C118_disturbed_case : (forall K, ~ undisturbed c118_del_ins 0 K) /\
  option_map (fun x => map (fun k => (k_in k, k_pc k, k_out k)) (cs_conns x))
    (csteps ex_env (repeat (0%nat, 1000%N) 7 ++ repeat (1%nat, 1001%N) 7 ++ repeat (0%nat, 1002%N) 5) (cs_start db_empty c118_del_ins)) =
    Some [([], KIdle, [frame_ok; FNull]); ([], KIdle, [FInteger 1])].
Proof.
  split; [|vm_compute; reflexivity]. intros K [U1 U2]. destruct (U2 1 ltac:(done) (QDel [cl_a])) as [_ N]; [by left|]. apply (N cl_a); [by left|].
  apply (U1 (QGet cl_a)); [by right; left|by left].
Qed.
(** In the execution of C113_bytes_case the first client stores under a key, and the second one looks at it. *)
Example C118_bytes_case : let K := eq (bs "k") in
  (forall j q, was_asked c113_evs j q -> separable q) /\ (forall q k, was_asked c113_evs 0 q -> In k (named_keys q) -> K k) /\
  (forall j q, j <> 0 -> was_asked c113_evs j q -> (forall sync, q <> QFlushall sync) /\ forall k, In k (may_change q) -> ~ K k).
Proof.
  assert (Q : forall j q, was_asked c113_evs j q -> named_keys q = [bs "k"] /\ separable q /\ (j <> 0 -> looks q = true) /\ forall sync, q <> QFlushall sync).
  { intros [|[|j]] q (f & H & E).
    - vm_compute in H. destruct H as [<-|[<-|[]]]; vm_compute in E; injection E as <-; done.
    - vm_compute in H. destruct H as [<-|[]]; vm_compute in E; injection E as <-; done.
    - by vm_compute in H. }
  intros K. split; [intros j q A; by apply (Q j q A)|]. split.
  - intros q k A I. destruct (Q _ _ A) as (E & _). rewrite E in I. by destruct I as [<-|[]].
  - intros j q J A. destruct (Q _ _ A) as (_ & _ & L & F). split; [done|]. unfold may_change. rewrite L by done. by intros k [].
Qed.
