(** C119: clients that share a list as a queue. *)
From Verif Require Export SpecShared.
From Verif Require Import PropAlone PropLeader LeaderFacts FlushFacts PropFlush PropWhole PropTalk PropParts PropClients ClientsFacts.

Definition handed_fate (k : bytes) (q : request) (r : frame + hend) : list frame := match r with inl f => handed k q f | inr _ => [] end.
Lemma list_step en num t0 t1 q k f m m1 P r l0 : list_meaning en q = Some (k, f) -> fates en num t0 t1 q m m1 P -> P r -> list_at m k l0 ->
  exists s d, m k = stored DDeque d s /\ default [] s = l0 /\ d = 0%N /\ m1 k = stored DDeque d (fst (f s)) /\ r = inl (snd (f s)).
Proof.
  intros LM F R LA.
  assert (KEY : forall k' y Q, fate_key en num t0 t1 q k' (m k') y Q -> Q r -> k' = k /\ exists s d, m k = stored DDeque d s /\ default [] s = l0 /\ d = 0%N /\ y = stored DDeque d (fst (f s)) /\ r = inl (snd (f s))).
  { intros k' y Q K RQ. assert (k' = k) as ->.
    { pose proof (fate_key_named _ _ _ _ _ _ _ _ _ K) as E. destruct q; try discriminate LM; injection LM as -> _; by injection E as ->. }
    split; [done|]. remember (m k) as z eqn:Z. destruct K as [q k y y' Q M|q k o rep s d T N O|q k o rep x d T N|q k Q rep y T|q k rep y T|k y|k ttl v o y D N].
    2-5: exfalso; by destruct T.
    2-3: discriminate LM.
    destruct r as [r|]; [|done]. cbn [replied] in RQ.
    destruct M.
    all: try discriminate LM.
    all: try (match goal with H : zquery _ _ _ _ |- _ => exfalso; by destruct H | H : lquery _ _ _ _ |- _ => exfalso; by destruct H | H : zremoval _ _ _ |- _ => exfalso; by destruct H | H : lremoval _ _ _ |- _ => exfalso; by destruct H end).
    all: try (match goal with H : hash_meaning _ _ _ = Some _ |- _ => exfalso; destruct q; discriminate | H : set_meaning_of _ = Some _ |- _ => exfalso; destruct q; discriminate
      | H : setex_asks _ _ = Some _ |- _ => exfalso; destruct q; discriminate | H : counter_asks _ = Some _ |- _ => exfalso; destruct q; discriminate
      | H : expire_wants _ _ = Some _ |- _ => exfalso; destruct q; discriminate end).
    - match goal with H : list_meaning _ _ = Some (_, ?g) |- _ => assert (g = f) as -> by congruence end. subst r.
      destruct s as [s|].
      + unfold list_at in LA. rewrite <- Z in LA. cbn in LA. destruct LA as [[= -> ->]|[LA _]]; [|done]. exists (Some l0), 0%N. done.
      + unfold list_at in LA. rewrite <- Z in LA. cbn in LA. destruct LA as [LA|[_ ->]]; [done|]. exists None, 0%N. rewrite H0 by done. done.
    - exfalso. unfold list_at in LA. rewrite <- Z in LA. destruct LA as [LA|[LA _]]; [|done]. injection LA; intros; subst.
      match goal with H : works_on q = Some _, H' : kind_of _ <> _ |- _ => destruct q; try discriminate LM; injection H as <- <-; by apply H' end. }
  destruct F as [q k' m y Q K|q m m' Q M|s m|m|sub m H|sub m H|m|m]; try discriminate LM.
  - destruct (KEY k' y Q K R) as (-> & s & d & A & B & C & D & E). exists s, d. split; [done|]. split; [done|]. split; [done|]. split; [|done]. unfold update. by rewrite decide_True.
  - destruct M as [q k' m y Q M|q m g H|sub ps m H|sub ps m H|sync m]; try discriminate LM.
    + destruct (KEY k' y (replied Q)) as (-> & s & d & A & B & C & D & E); [by constructor|done|]. exists s, d. split; [done|]. split; [done|]. split; [done|]. split; [|done]. unfold update. by rewrite decide_True.
    + exfalso. destruct q; discriminate.
Qed.
Lemma list_at_later t m k l : list_at m k l -> later t m k = m k.
Proof. intros [E|[E _]]; unfold later; rewrite E; [|done]. unfold while_alive. by rewrite decide_True by by left. Qed.
Lemma queue_step en num t0 t1 q k m m1 P r l0 : fates en num t0 t1 q m m1 P -> P r -> queue_use k q -> list_at m k l0 ->
  exists l1, list_at m1 k l1 /\ map (shown en) (l0 ++ pushes k q) ≡ₚ handed_fate k q r ++ map (shown en) l1 /\
    (fifo_use k q -> map (shown en) (l0 ++ pushes k q) = handed_fate k q r ++ map (shown en) l1).
Proof.
  intros F R U LA. destruct U as [(xs & [-> | ->])|[(n & [-> | ->])|[NF N]]].
  - destruct (list_step en num t0 t1 (QLpush k xs) k _ m m1 P r l0 eq_refl F R LA) as (s & d & A & B & -> & D & ->). cbn in D. exists (rev xs ++ l0). rewrite B in D.
    split; [by left|]. cbn [pushes handed_fate handed app]. rewrite decide_True by done. split.
    + apply Permutation_map. rewrite <- (Permutation_rev xs). by rewrite Permutation_app_comm.
    + intros [[? ?]|[[? ?]|[_ N]]]; [done|done|]. destruct N. by left.
  - destruct (list_step en num t0 t1 (QRpush k xs) k _ m m1 P r l0 eq_refl F R LA) as (s & d & A & B & -> & D & ->). cbn in D. exists (l0 ++ xs). rewrite B in D.
    split; [by left|]. cbn [pushes handed_fate handed app]. by rewrite decide_True.
  - destruct (list_step en num t0 t1 (QLpop k n) k _ m m1 P r l0 eq_refl F R LA) as (s & d & A & B & -> & D & ->). exists (skipn (N.to_nat n) l0).
    assert (E : map (shown en) (l0 ++ pushes k (QLpop k n)) = map (shown en) (firstn (N.to_nat n) l0) ++ map (shown en) (skipn (N.to_nat n) l0)).
    { cbn [pushes]. by rewrite app_nil_r, <- map_app, firstn_skipn. }
    destruct s as [s|]; cbn in B; subst l0; cbn [fst snd handed_fate handed] in *; rewrite decide_True by done.
    + split; [by left|]. by rewrite E.
    + rewrite skipn_nil, firstn_nil in *. split; [by right|]. by rewrite E.
  - destruct (list_step en num t0 t1 (QRpop k n) k _ m m1 P r l0 eq_refl F R LA) as (s & d & A & B & -> & D & ->). exists (firstn (length l0 - N.to_nat n) l0).
    destruct s as [s|]; cbn in B; subst l0; cbn [fst snd handed_fate handed pushes] in *; rewrite decide_True, app_nil_r by done.
    + split; [by left|]. split.
      * rewrite <- map_app. apply Permutation_map. rewrite <- Permutation_rev, Permutation_app_comm. by rewrite firstn_skipn.
      * intros [[? ?]|[[? ?]|[_ N]]]; [done|done|]. destruct N. by left.
    + rewrite firstn_nil. split; [by right|]. done.
  - assert (E : m1 k = m k) by exact (others_spare _ _ _ _ _ _ _ _ k F NF N). exists l0. split; [unfold list_at in *; by rewrite E|].
    assert (E1 : pushes k q = []).
    { destruct q; try done; cbn [pushes]; destruct (decide (k0 = k)) as [->|]; try done; destruct N; by left. }
    assert (E2 : handed_fate k q r = []).
    { destruct r as [r|]; [|done]. cbn [handed_fate]. destruct q; try done; destruct r; try done; cbn [handed]; destruct (decide (k0 = k)) as [->|]; try done; destruct N; by left. }
    rewrite E1, E2, app_nil_r. done.
Qed.
Lemma queue_play en num k m l fs m' : play en num m l fs m' -> (forall s, In (Did s) l -> queue_use k (sv_req s)) -> (forall i s, ~ In (Wiped i s) l) ->
  forall l0, list_at m k l0 -> exists l1, list_at m' k l1 /\
    map (shown en) (l0 ++ flat_map (fun s => pushes k (sv_req s)) (dids l)) ≡ₚ flat_map (fun p => handed_fate k (sv_req (fst p)) (snd p)) (combine (dids l) fs) ++ map (shown en) l1 /\
    ((forall s, In (Did s) l -> fifo_use k (sv_req s)) ->
     map (shown en) (l0 ++ flat_map (fun s => pushes k (sv_req s)) (dids l)) = flat_map (fun p => handed_fate k (sv_req (fst p)) (snd p)) (combine (dids l) fs) ++ map (shown en) l1).
Proof.
  induction 1 as [m|s l m m1 P r rs m2 NF F R _ IH|s sync l m rs m2 Q _ IH|i s l m rs m2 _ IH]; intros U W l0 LA.
  - exists l0. cbn. rewrite app_nil_r. done.
  - assert (LA' : list_at (later (sv_clock s 1%nat) m) k l0) by (unfold list_at in *; by rewrite (list_at_later _ _ _ _ LA)).
    destruct (queue_step _ _ _ _ _ _ _ _ _ _ _ F R (U s (or_introl eq_refl)) LA') as (l1 & A1 & A2 & A3).
    destruct (IH (fun s' I => U s' (or_intror I)) (fun i s' I => W i s' (or_intror I)) l1 A1) as (l2 & B1 & B2 & B3).
    exists l2. split; [done|]. cbn [dids combine flat_map fst snd]. split.
    + rewrite (app_assoc l0), map_app, A2, <- !app_assoc. apply Permutation_app_head. rewrite <- map_app. exact B2.
    + intros FU. rewrite (app_assoc l0), map_app, A3, <- !app_assoc by (apply FU; by left). f_equal. rewrite <- map_app. apply B3. intros s' I. apply FU. by right.
  - exfalso. destruct (U s (or_introl eq_refl)) as [(xs & [E|E])|[(n & [E|E])|[E _]]]; rewrite Q in E; try done. by destruct (E sync).
  - exfalso. apply (W i s). by left.
Qed.

(** ** From deeds to clients *)
Lemma deed_source ins l d : In d l -> (exists more, flat_map script (flat_map parts (nth (doer d) ins [])) = acts (doer d) l ++ more) ->
  exists q p, In q (nth (doer d) ins []) /\ In p (parts q) /\ match d with Did s => sv_req s = p | Wiped _ _ => exists sync, p = QFlushall sync end.
Proof.
  intros D [more M].
  assert (IN : In (match d with Did s => inl (sv_req s) | Wiped _ s => inr s end) (flat_map script (flat_map parts (nth (doer d) ins [])))).
  { rewrite M. apply in_or_app. left. unfold acts. apply in_flat_map. exists d. split; [done|]. destruct d as [s|j s]; cbn [doer]; rewrite Nat.eqb_refl; by left. }
  apply in_flat_map in IN as (p & IN & S). apply in_flat_map in IN as (q & IN & PQ). exists q, p. split; [done|]. split; [done|].
  destruct d as [s|j s].
  - destruct p; try (destruct S as [[= <-]|[]]; done). unfold script in S. apply in_app_or in S as [S|[[= <-]|[]]]; [|done]. apply in_map_iff in S as (? & ? & _). done.
  - destruct p; try (destruct S as [?|[]]; done). by eexists.
Qed.
Lemma parts_use k q p : In p (parts q) -> (queue_use k q -> queue_use k p) /\ (fifo_use k q -> fifo_use k p) /\
  (queue_use k q -> forall sync, p <> QFlushall sync).
Proof.
  intros I. destruct (parts_named q p k I) as (_ & P2 & P3). split; [|split].
  - intros [(xs & [-> | ->])|[(n & [-> | ->])|[NF N]]]; try (destruct I as [<-|[]]).
    + left; eauto. + left; eauto. + right; left; eauto. + right; left; eauto. + right; right. split; [by apply P3|]. intros K. by apply N, P2.
  - intros [(xs & ->)|[(n & ->)|[NF N]]]; try (destruct I as [<-|[]]).
    + left; eauto. + right; left; eauto. + right; right. split; [by apply P3|]. intros K. by apply N, P2.
  - intros [(xs & [-> | ->])|[(n & [-> | ->])|[NF N]]]; try (destruct I as [<-|[]]; done). by apply P3.
Qed.
Lemma fifo_queue k q : fifo_use k q -> queue_use k q.
Proof. intros [(xs & ->)|[(n & ->)|N]]; [left; eauto|right; left; eauto|by right; right]. Qed.
Lemma play_length en num m l fs m' : play en num m l fs m' -> length fs = length (dids l).
Proof. induction 1; cbn [dids length]; congruence. Qed.
Lemma by_client {A B} (own : A -> nat) (f : A -> list B) (n : nat) (L : list A) : Forall (fun a => own a < n) L ->
  flat_map f L ≡ₚ flat_map (fun i => flat_map f (List.filter (fun a => Nat.eqb (own a) i) L)) (seq 0 n).
Proof.
  intros F. induction F as [|a L O F IH]; [cbn; induction (seq 0 n); done|]. cbn [flat_map]. rewrite IH. clear IH.
  assert (E : seq 0 n = seq 0 (own a) ++ own a :: seq (S (own a)) (n - S (own a))).
  { replace n with (own a + (1 + (n - S (own a)))) at 1 by lia. rewrite !seq_app. f_equal. cbn. f_equal. f_equal. lia. }
  rewrite E, !flat_map_app. cbn [flat_map List.filter]. rewrite Nat.eqb_refl. cbn [flat_map].
  assert (O' : forall i, In i (seq 0 (own a)) \/ In i (seq (S (own a)) (n - S (own a))) -> Nat.eqb (own a) i = false).
  { intros i [I|I]; apply in_seq in I; apply Nat.eqb_neq; lia. }
  assert (X : forall S, (forall i, In i S -> Nat.eqb (own a) i = false) ->
    flat_map (fun i => flat_map f (if Nat.eqb (own a) i then a :: List.filter (fun a => Nat.eqb (own a) i) L else List.filter (fun a => Nat.eqb (own a) i) L)) S =
    flat_map (fun i => flat_map f (List.filter (fun a => Nat.eqb (own a) i) L)) S).
  { intros S HS. induction S as [|i S IH]; [done|]. cbn [flat_map]. rewrite HS by by left. rewrite IH; [done|]. intros j J. apply HS. by right. }
  rewrite !X; [|intros i I; apply O'; by right|intros i I; apply O'; by left]. rewrite <- app_assoc.
  rewrite !app_assoc. apply Permutation_app_tail, Permutation_app_tail, Permutation_app_comm.
Qed.
Lemma client_pairs i l fs : length fs = length (dids l) -> (forall j s, ~ In (Wiped j s) l) ->
  exists reqs, acts i l = map inl reqs /\
    map (fun p => (sv_req (fst p), snd p)) (List.filter (fun p => Nat.eqb (sv_conn (fst p)) i) (combine (dids l) fs)) = combine reqs (fated i (dids l) fs) /\
    length reqs = length (fated i (dids l) fs).
Proof.
  revert fs. induction l as [|[s|j s] l IH]; intros fs L W.
  - exists []. destruct fs; done.
  - destruct fs as [|f fs]; [done|]. cbn [dids length] in L. injection L as L. destruct (IH fs L) as (reqs & R1 & R2 & R3); [intros j s' I; apply (W j s'); by right|].
    destruct s as [c q cl]. cbn [dids]. rewrite fated_cons. unfold acts in *. cbn [flat_map sv_conn sv_req combine List.filter fst].
    destruct (Nat.eqb c i); cbn [app map fst snd sv_req combine length]; [exists (q :: reqs)|exists reqs]; cbn [map combine length]; rewrite ?R1, ?R2, ?R3; done.
  - destruct (W j s). by left.
Qed.
Lemma flat_map_twice {A B C} (f : B -> list C) (g : A -> list B) l : flat_map f (flat_map g l) = flat_map (fun i => flat_map f (g i)) l.
Proof. induction l as [|a l IH]; [done|]. cbn [flat_map]. by rewrite flat_map_app, IH. Qed.
Lemma flat_map_ext_in {A B} (f g : A -> list B) l : (forall a, In a l -> f a = g a) -> flat_map f l = flat_map g l.
Proof. induction l as [|a l IH]; intros H; [done|]. cbn [flat_map]. rewrite H by by left. f_equal. apply IH. intros b I. apply H. by right. Qed.
Lemma merged_pairs k qs ps rs : merged qs ps rs -> length qs = length rs /\
  flat_map (fun p => handed_fate k (fst p) (snd p)) (combine (flat_map parts qs) (map inl ps)) = flat_map (fun p => handed k (fst p) (snd p)) (combine qs rs) /\
  flat_map (pushes k) (flat_map parts qs) = flat_map (pushes k) qs.
Proof.
  induction 1 as [|q f qs ps rs P _ (IH1 & IH2 & IH3)|q zs qs ps rs Z _ (IH1 & IH2 & IH3)]; [done|..].
  - cbn [flat_map length map]. rewrite P. cbn [app combine flat_map fst snd handed_fate]. rewrite IH1, IH2, IH3. done.
  - split; [cbn; by rewrite IH1|]. cbn [flat_map map]. rewrite map_app, flat_map_app, IH3. split.
    + cbn [combine flat_map fst snd]. rewrite <- IH2.
      assert (H0 : handed k q (FInteger (sum_of zs)) = []) by by destruct q. rewrite H0. cbn [app].
      assert (X : forall l1 zs (l2 : list request) (m2 : list (frame + hend)), length zs = length l1 -> flat_map (fun p => handed_fate k (fst p) (snd p)) (combine (l1 ++ l2) (map inl (map FInteger zs) ++ m2)) =
        flat_map (fun p => handed_fate k (fst p) (snd p)) (combine l2 m2)).
      { clear. induction l1 as [|p l1 IH]; intros zs l2 m2 L; destruct zs as [|z zs]; try done. cbn [app map combine flat_map fst snd handed_fate].
        rewrite IH by by injection L. by destruct p. }
      by apply X.
    + f_equal. clear. destruct q; cbn [parts]; try (cbn; by rewrite ?app_nil_r).
      all: destruct ks as [|k0 ks]; [done|]; induction (k0 :: ks) as [|k1 l IH]; [done|]; cbn [map flat_map pushes app]; exact IH.
Qed.

(** * Clients that share a list, in a whole server: what they have pushed is what they have been handed by their pops and what is still in
      the list; so no element is lost, made up, or handed out twice, whoever pushes and pops at the same time. *)
Theorem C119_queue : forall en b m ins evs x k l0,
  horder_ok (e_ho en) -> shows 0 b m -> orderly m -> Forall (Forall separable) ins ->
  leader_steps en evs (leader_start b ins) = Some x -> StronglySorted N.le (map fst evs) ->
  Forall (Forall (queue_use k)) ins -> list_at m k l0 -> all_idle (ld_cl x) ->
  exists l1 t, (forall u, (t <= u)%N -> list_at (db_view u (cs_db (ld_cl x))) k l1) /\
    map (shown en) (l0 ++ flat_map (fun p => pushes k (fst p)) (exchanged ins (ld_cl x))) ≡ₚ
    flat_map (fun p => handed k (fst p) (snd p)) (exchanged ins (ld_cl x)) ++ map (shown en) l1.
Proof.
  destruct C112_clients as (num & RC & C). intros en b m ins evs x k l0 HO S OR A H T U LA ID.
  destruct (C en b m ins evs x HO S OR A H T) as (l & fs & m' & t & R & SH & FO & DO & EX).
  assert (LC : forall j, j < length ins -> exists c, cs_conns (ld_cl x) !! j = Some c).
  { destruct (C112_one_more_client en b ins evs x H T) as (keys & evs' & y & replies & H' & _ & _ & _ & CO). intros j J. apply lookup_lt_is_Some.
    pose proof (csteps_length en evs' _ y H') as L. rewrite CO in L. cbn [cs_start cs_conns] in L. rewrite map_length, !app_length in L. cbn in L. lia. }
  assert (SRC : forall d, In d l -> exists q p, queue_use k q /\ In p (parts q) /\ match d with Did s => sv_req s = p | Wiped _ _ => exists sync, p = QFlushall sync end).
  { intros d D. rewrite List.Forall_forall in DO. destruct (LC _ (DO d D)) as [c K]. destruct (EX _ c K) as (_ & _ & _ & _ & _ & _ & M & _).
    destruct (deed_source ins l d D M) as (q & p & Q & P & E). exists q, p. split; [|done]. rewrite List.Forall_forall in U.
    assert (IN : In (nth (doer d) ins []) ins) by (apply nth_In, DO, D). specialize (U _ IN). rewrite List.Forall_forall in U. by apply U. }
  assert (W : forall i s, ~ In (Wiped i s) l).
  { intros i s D. destruct (SRC _ D) as (q & p & Q & P & sync & ->). by apply (proj2 (proj2 (parts_use k q _ P)) Q sync). }
  destruct (queue_play en num k m l fs m' R) with (l0 := l0) as (l1 & L1 & L2 & _); [|done|done|].
  { intros s D. destruct (SRC _ D) as (q & p & Q & P & ->). by apply (parts_use k q p P). }
  pose proof (play_length _ _ _ _ _ _ R) as LF.
  exists l1, t. split; [intros u UU; unfold list_at; rewrite SH by done; rewrite (list_at_later _ _ _ _ L1); exact L1|].
  assert (CL : forall i, i < length ins -> exists qs rest ps c, cs_conns (ld_cl x) !! i = Some c /\ nth i ins [] = qs ++ rest /\ merged qs ps (k_out c) /\
    map (fun p => (sv_req (fst p), snd p)) (List.filter (fun p => Nat.eqb (sv_conn (fst p)) i) (combine (dids l) fs)) = combine (flat_map parts qs) (map inl ps) /\ length (flat_map parts qs) = length ps).
  { intros i I. destruct (LC i I) as [c K]. destruct (EX i c K) as (qs & rest & ps & E1 & E2 & _ & _ & E5). destruct (E5 (ID i c K)) as (_ & F & AC).
    exists qs, rest, ps, c. split; [done|]. split; [done|]. split; [done|]. destruct (client_pairs i l fs LF W) as (reqs & R1 & R2 & R3). rewrite F in R2, R3. rewrite map_length in R3.
    assert (E : reqs = flat_map parts qs); [|by rewrite <- E].
    assert (SC : flat_map script (flat_map parts qs) = map inl (flat_map parts qs)).
    { assert (Q : forall p, In p (flat_map parts qs) -> forall sync, p <> QFlushall sync).
      { intros p P. apply in_flat_map in P as (q & Q & P). eapply parts_use; [exact P|]. rewrite List.Forall_forall in U.
        assert (IN : In (nth i ins []) ins) by (by apply nth_In). specialize (U _ IN). rewrite List.Forall_forall in U. apply U. rewrite E1. apply in_or_app. by left. }
      clear -Q. induction (flat_map parts qs) as [|p L IH]; [done|]. cbn [flat_map map]. rewrite IH by (intros p' I; apply Q; by right).
      assert (P : forall sync, p <> QFlushall sync) by (apply Q; by left). destruct p; try done. by destruct (P sync). }
    rewrite SC, R1 in AC. clear -AC. revert AC. generalize (flat_map parts qs). induction reqs as [|q reqs IH]; intros [|q' L] E; try done. injection E as -> E. f_equal. by apply IH. }
  (* pushes and pops, client by client *)
  assert (LTC : Forall (fun a : serial_entry * (frame + hend) => sv_conn (fst a) < length ins) (combine (dids l) fs)).
  { apply List.Forall_forall. intros [s f] I. apply in_combine_l in I. cbn [fst]. rewrite List.Forall_forall in DO. apply (DO (Did s)).
    clear -I. induction l as [|[s'|j s'] l IH]; cbn [dids] in I; [done| |right; by apply IH]. destruct I as [->|I]; [by left|right; by apply IH]. }
  assert (PU : flat_map (fun s => pushes k (sv_req s)) (dids l) = flat_map (fun p => pushes k (sv_req (fst p))) (combine (dids l) fs)).
  { clear -LF. revert fs LF. induction (dids l) as [|s d IH]; intros [|f fs] L; try done. cbn [combine flat_map fst]. f_equal. apply IH. by injection L. }
  rewrite PU in L2. unfold exchanged.
  assert (XP : flat_map (fun p => pushes k (sv_req (fst p))) (combine (dids l) fs) ≡ₚ
    flat_map (fun p => pushes k (fst p)) (flat_map (fun i => combine (nth i ins []) (replies_to (ld_cl x) i)) (seq 0 (length ins)))).
  { rewrite (by_client (fun p => sv_conn (fst p)) _ _ _ LTC), flat_map_twice.
    apply Permutation_refl', flat_map_ext_in. intros i I. apply in_seq in I. destruct (CL i) as (qs & rest & ps & c & K & E1 & MG & E2 & E3); [lia|].
    destruct (merged_pairs k _ _ _ MG) as (M1 & _ & M3). unfold replies_to. rewrite K, E1.
    transitivity (flat_map (pushes k) (flat_map parts qs)).
    - transitivity (flat_map (fun p => pushes k (fst p)) (combine (flat_map parts qs) (map inl ps : list (frame + hend)))).
      + rewrite <- E2. clear. induction (List.filter _ _) as [|p L IH]; [done|]. cbn [flat_map map fst]. by rewrite IH.
      + clear -E3. revert ps E3. induction (flat_map parts qs) as [|p L IH]; intros [|f ps] E; try done. cbn [map combine flat_map fst]. f_equal. apply IH. by injection E.
    - rewrite M3. clear -M1. revert M1. generalize (k_out c). induction qs as [|q qs IH]; intros [|f L] E; try done; [by destruct rest|].
      cbn [app combine flat_map fst]. f_equal. apply IH. by injection E. }
  assert (XH : flat_map (fun p => handed_fate k (sv_req (fst p)) (snd p)) (combine (dids l) fs) ≡ₚ
    flat_map (fun p => handed k (fst p) (snd p)) (flat_map (fun i => combine (nth i ins []) (replies_to (ld_cl x) i)) (seq 0 (length ins)))).
  { rewrite (by_client (fun p => sv_conn (fst p)) _ _ _ LTC), flat_map_twice.
    apply Permutation_refl', flat_map_ext_in. intros i I. apply in_seq in I. destruct (CL i) as (qs & rest & ps & c & K & E1 & MG & E2 & E3); [lia|].
    destruct (merged_pairs k _ _ _ MG) as (M1 & M2 & _). unfold replies_to. rewrite K, E1.
    transitivity (flat_map (fun p => handed_fate k (fst p) (snd p)) (combine (flat_map parts qs) (map inl ps : list (frame + hend)))).
    - rewrite <- E2. clear. induction (List.filter _ _) as [|p L IH]; [done|]. cbn [flat_map map fst snd]. by rewrite IH.
    - rewrite M2. clear -M1. revert M1. generalize (k_out c). induction qs as [|q qs IH]; intros [|f L] E; try done; [by destruct rest|].
      cbn [app combine flat_map fst snd]. f_equal. apply IH. by injection E. }
  rewrite map_app in L2 |- *. rewrite <- XP, <- XH. exact L2.
Qed.
Print Assumptions C119_queue.

(** If all push at the right end and pop at the left, elements are handed out in the order in which they were pushed: there is an order of the
    requests, the one of C112, in which the elements pushed are those handed out followed by those still in the list. This is said of every
    moment, also while requests are being executed. *)
Theorem C119_fifo : exists num, reads_counters num /\ forall en b m ins evs x k l0,
  horder_ok (e_ho en) -> shows 0 b m -> orderly m -> Forall (Forall separable) ins ->
  leader_steps en evs (leader_start b ins) = Some x -> StronglySorted N.le (map fst evs) ->
  Forall (Forall (fifo_use k)) ins -> list_at m k l0 ->
  exists l fs m' t l1, play en num m l fs m' /\ shows t (cs_db (ld_cl x)) m' /\ list_at m' k l1 /\
    (forall i c, cs_conns (ld_cl x) !! i = Some c -> exists qs rest ps,
      nth i ins [] = qs ++ rest /\ merged qs ps (k_out c) /\ (exists last, fated i (dids l) fs = map inl ps ++ last) /\
      (exists more, flat_map script (flat_map parts (nth i ins [])) = acts i l ++ more) /\
      (k_pc c = KIdle -> rest = k_in c /\ fated i (dids l) fs = map inl ps /\ acts i l = flat_map script (flat_map parts qs))) /\
    map (shown en) (l0 ++ flat_map (fun s => pushes k (sv_req s)) (dids l)) =
    flat_map (fun p => match snd p with inl f => handed k (sv_req (fst p)) f | inr _ => [] end) (combine (dids l) fs) ++ map (shown en) l1.
Proof.
  destruct C112_clients as (num & RC & C). exists num. split; [done|]. intros en b m ins evs x k l0 HO S OR A H T U LA.
  destruct (C en b m ins evs x HO S OR A H T) as (l & fs & m' & t & R & SH & FO & DO & EX).
  assert (LC : forall j, j < length ins -> exists c, cs_conns (ld_cl x) !! j = Some c).
  { destruct (C112_one_more_client en b ins evs x H T) as (keys & evs' & y & replies & H' & _ & _ & _ & CO). intros j J. apply lookup_lt_is_Some.
    pose proof (csteps_length en evs' _ y H') as L. rewrite CO in L. cbn [cs_start cs_conns] in L. rewrite map_length, !app_length in L. cbn in L. lia. }
  assert (SRC : forall d, In d l -> exists q p, fifo_use k q /\ In p (parts q) /\ match d with Did s => sv_req s = p | Wiped _ _ => exists sync, p = QFlushall sync end).
  { intros d D. rewrite List.Forall_forall in DO. destruct (LC _ (DO d D)) as [c K]. destruct (EX _ c K) as (_ & _ & _ & _ & _ & _ & M & _).
    destruct (deed_source ins l d D M) as (q & p & Q & P & E). exists q, p. split; [|done]. rewrite List.Forall_forall in U.
    assert (IN : In (nth (doer d) ins []) ins) by (apply nth_In, DO, D). specialize (U _ IN). rewrite List.Forall_forall in U. by apply U. }
  destruct (queue_play en num k m l fs m' R) with (l0 := l0) as (l1 & L1 & _ & L3).
  { intros s D. destruct (SRC _ D) as (q & p & Q & P & ->). by apply (parts_use k q p P), fifo_queue. }
  { intros i s D. destruct (SRC _ D) as (q & p & Q & P & sync & ->). by apply (proj2 (proj2 (parts_use k q _ P)) (fifo_queue _ _ Q) sync). }
  { done. }
  exists l, fs, m', t, l1. split; [done|]. split; [done|]. split; [done|]. split; [done|]. apply L3.
  intros s D. destruct (SRC _ D) as (q & p & Q & P & ->). by apply (parts_use k q p P).
Qed.
Print Assumptions C119_fifo.

(** ** Concrete case *)
(** A producer and two consumers; the first pop comes too early and gets nothing. *)
Definition c119_ins : list (list request) :=
  [[QRpush cl_a [SBytes (bs "1"); SBytes (bs "2")]; QRpush cl_a [SBytes (bs "3")]]; [QLpop cl_a 1; QLpop cl_a 1]; [QLpop cl_a 5; QLlen cl_a]].
Definition c119_turns : list (N * turn) :=
  repeat (1%N, LConn 1) 7 ++ repeat (2%N, LConn 0) 6 ++ repeat (3%N, LConn 1) 2 ++ repeat (4%N, LConn 0) 4 ++ repeat (5%N, LConn 2) 6 ++ repeat (6%N, LConn 1) 3 ++
  repeat (7%N, LConn 0) 2.
Example C119_queue_case : Forall (Forall separable) c119_ins /\ Forall (Forall (queue_use cl_a)) c119_ins /\ Forall (Forall (fifo_use cl_a)) c119_ins /\
  list_at (fun _ => None) cl_a [] /\ StronglySorted N.le (map fst c119_turns) /\
  option_map (fun x => map (fun k => (k_pc k, k_out k)) (cs_conns (ld_cl x))) (leader_steps ex_env c119_turns (leader_start db_empty c119_ins)) =
  Some [(KIdle, [FInteger 2; FInteger 2]); (KIdle, [FArray []; FArray [FBulk (bs "1")]]); (KIdle, [FArray [FBulk (bs "2"); FBulk (bs "3")]])].
Proof.
  assert (F : Forall (Forall (fifo_use cl_a)) c119_ins).
  { repeat apply List.Forall_cons; try apply List.Forall_nil; [left; by eexists|left; by eexists|right; left; by eexists|right; left; by eexists|right; left; by eexists|].
    right; right. split; [done|]. by intros []. }
  split; [by repeat constructor|]. split; [eapply List.Forall_impl, F; intros a; eapply List.Forall_impl; intros q; apply fifo_queue|].
  split; [exact F|]. split; [by right|]. split; [repeat constructor; discriminate|]. vm_compute. reflexivity.
Qed.
