(** C120: clients that use a field of a hash as a lock. *)
From Verif Require Export SpecLock.
From Verif Require Import PropShared PropAlone PropLeader LeaderFacts FlushFacts PropFlush PropWhole PropTalk PropParts PropClients ClientsFacts.

Definition lock_at (m : store) (k f : bytes) (h : bool) : Prop := if h then lock_taken m k f else lock_free m k f.
Lemma lock_at_later t m k f h : lock_at m k f h -> later t m k = m k.
Proof.
  assert (A : forall x, m k = Some (x, 0%N) -> later t m k = m k).
  { intros x E. unfold later. rewrite E. unfold while_alive. by rewrite decide_True by by left. }
  destruct h; [intros (x & E & _); by apply (A _ E)|intros [E|(x & E & _)]; [unfold later; by rewrite E|by apply (A _ E)]].
Qed.
Lemma setnx_step en num t0 t1 k fd x m m1 P r h : fates en num t0 t1 (QHsetnx k fd x) m m1 P -> P r -> lock_at m k fd h ->
  lock_taken m1 k fd /\ r = inl (FInteger (if h then 0 else 1)).
Proof.
  intros F R LA.
  assert (KEY : forall k' y Q, fate_key en num t0 t1 (QHsetnx k fd x) k' (m k') y Q -> Q r -> k' = k /\ (exists g, y = Some (DKvp g, 0%N) /\ is_Some (g !! fd)) /\ r = inl (FInteger (if h then 0 else 1))).
  { intros k' y Q K RQ. assert (k' = k) as ->.
    { pose proof (fate_key_named _ _ _ _ _ _ _ _ _ K) as E. by injection E as ->. }
    split; [done|]. remember (m k) as z eqn:Z. remember (QHsetnx k fd x) as q eqn:QE. remember k as k0 eqn:KE in K. destruct K as [q k1 y y' Q M|q k1 o rep s d T N O|q k1 o rep x' d T N|q k1 Q rep y T|q k1 rep y T|k1 y|k1 ttl v o y D N].
    2-5: exfalso; rewrite QE in T; by inversion T.
    2-3: discriminate QE.
    destruct r as [r|]; [|done]. cbn [replied] in RQ. rewrite QE in M. subst k1.
    inversion M; subst; try discriminate.
    all: try (match goal with H : zquery _ _ _ _ |- _ => exfalso; by inversion H | H : lquery _ _ _ _ |- _ => exfalso; by inversion H | H : zremoval _ _ _ |- _ => exfalso; by inversion H | H : lremoval _ _ _ |- _ => exfalso; by inversion H end).
    - match goal with H : hash_meaning _ _ _ = Some _ |- _ => injection H as <- end.
      match goal with H : stored DKvp d s = m k |- _ => rename H into Z end.
      destruct h; cbn [lock_at] in LA.
      + destruct LA as (g & E & [w W]). rewrite E in Z. destruct s as [s|]; [|done]. injection Z as -> ->. cbn [default] in *. cbn in RQ |- *. rewrite W in RQ |- *. cbn in RQ |- *. subst r.
        split; [by exists g; rewrite W|done].
      + destruct LA as [E|(g & E & W)]; rewrite E in Z.
        * destruct s as [s|]; [done|]. match goal with H : None = None -> d = 0%N |- _ => rewrite H by done end. cbn in RQ |- *. rewrite lookup_empty in RQ |- *. cbn in RQ |- *. subst r.
          split; [|done]. eexists. split; [done|]. by rewrite lookup_insert.
        * destruct s as [s|]; [|done]. injection Z as -> ->. cbn in RQ |- *. rewrite W in RQ |- *. cbn in RQ |- *. subst r.
          split; [|done]. eexists. split; [done|]. by rewrite lookup_insert.
    - exfalso. match goal with H : works_on _ = Some _ |- _ => injection H as <- end. 
      match goal with H : Some _ = m k |- _ => rename H into Z end.
      destruct h; [destruct LA as (g & E & _)|destruct LA as [E|(g & E & _)]]; rewrite E in Z; try done; injection Z as -> ->; done. }
  inversion F as [q k' m0 y Q K|q m0 m' Q M|s m0|m0|sub m0 H|sub m0 H|m0|m0]; subst; try discriminate.
  - destruct (KEY k' y P K R) as (-> & (g & E & G) & D). split; [|done]. exists g. unfold update. by rewrite decide_True.
  - inversion M as [q k' m0 y Q' M'|q m0 g H|sub ps m0 H|sub ps m0 H|sync m0]; subst; try discriminate.
    destruct (KEY k' y (replied Q)) as (-> & (g & E & G) & D); [by constructor|done|]. split; [|done]. exists g. unfold update. by rewrite decide_True.
Qed.
Definition tick (b : bool) : list unit := if b then [tt] else [].
Definition fate_ticks (g : request -> frame -> bool) (q : request) (r : frame + hend) : list unit := match r with inl f => tick (g q f) | inr _ => [] end.
Lemma tries_other k f q : ~ In k (may_change q) -> tries k f q = false.
Proof. intros N. destruct q; try done. cbn [tries]. case_bool_decide as E; [|done]. subst. destruct N. by left. Qed.
Lemma lock_play en num k f m l fs m' : play en num m l fs m' -> (forall s, In (Did s) l -> lock_use k f (sv_req s)) -> (forall i s, ~ In (Wiped i s) l) ->
  forall h, lock_at m k f h ->
    let w := length (flat_map (fun p => fate_ticks (wins k f) (sv_req (fst p)) (snd p)) (combine (dids l) fs)) in
    let t := length (flat_map (fun p => fate_ticks (fun q _ => tries k f q) (sv_req (fst p)) (snd p)) (combine (dids l) fs)) in
    lock_at m' k f (h || (0 <? t)) /\ w = if h then 0 else Nat.min 1 t.
Proof.
  induction 1 as [m|s l m m1 P r rs m2 NF F R _ IH|s sync l m rs m2 Q _ IH|i s l m rs m2 _ IH]; intros U W h LA.
  - cbn. rewrite orb_false_r. by destruct h.
  - assert (LA' : lock_at (later (sv_clock s 1%nat) m) k f h).
    { assert (E := lock_at_later (sv_clock s 1%nat) _ _ _ _ LA). unfold lock_at, lock_taken, lock_free in *. destruct h; by rewrite E. }
    specialize (IH (fun s' I => U s' (or_intror I)) (fun i s' I => W i s' (or_intror I))). cbn [dids combine flat_map fst snd]. rewrite !app_length.
    destruct (U s (or_introl eq_refl)) as [(x & E)|[NF' N]].
    + rewrite E in F |- *. destruct (setnx_step _ _ _ _ _ _ _ _ _ _ _ _ F R LA') as (T & ->). destruct (IH true T) as (IH1 & IH2). cbv zeta in *.
      cbn [fate_ticks]. unfold wins at 1. cbn [tries]. rewrite !bool_decide_true by done. cbn [andb tick length]. split; [by rewrite orb_true_r|].
      rewrite IH2. destruct h; reflexivity.
    + assert (E : m1 k = later (sv_clock s 1%nat) m k) by exact (others_spare _ _ _ _ _ _ _ _ k F NF' N).
      assert (LB : lock_at m1 k f h) by (unfold lock_at, lock_taken, lock_free in *; destruct h; by rewrite E).
      destruct (IH h LB) as (IH1 & IH2). cbv zeta in *.
      assert (X1 : fate_ticks (wins k f) (sv_req s) r = []) by (destruct r; [|done]; cbn [fate_ticks]; unfold wins; by rewrite tries_other).
      assert (X2 : fate_ticks (fun q _ => tries k f q) (sv_req s) r = []) by (destruct r; [|done]; cbn [fate_ticks]; by rewrite tries_other).
      rewrite X1, X2. cbn [length Nat.add]. done.
  - exfalso. destruct (U s (or_introl eq_refl)) as [(x & E)|[E _]]; rewrite Q in E; try done. by destruct (E sync).
  - exfalso. apply (W i s). by left.
Qed.
Lemma parts_lock k f q p : In p (parts q) -> lock_use k f q -> lock_use k f p /\ forall sync, p <> QFlushall sync.
Proof.
  intros I. destruct (parts_named q p k I) as (_ & P2 & P3). intros [(x & ->)|[NF N]].
  - destruct I as [<-|[]]. split; [|done]. left; eauto.
  - split; [|by apply P3]. right. split; [by apply P3|]. intros K. by apply N, P2.
Qed.
Lemma merged_ticks (g : request -> frame -> bool) qs ps rs : (forall ks r, g (QDel ks) r = false) -> (forall ks r, g (QExists ks) r = false) -> merged qs ps rs ->
  length qs = length rs /\
  flat_map (fun p => fate_ticks g (fst p) (snd p)) (combine (flat_map parts qs) (map inl ps)) = flat_map (fun p => tick (g (fst p) (snd p))) (combine qs rs).
Proof.
  intros G1 G2. induction 1 as [|q f qs ps rs P _ (IH1 & IH2)|q zs qs ps rs Z _ (IH1 & IH2)]; [done|..].
  - cbn [flat_map length map]. rewrite P. cbn [app combine flat_map fst snd fate_ticks]. rewrite IH1, IH2. done.
  - split; [cbn; by rewrite IH1|]. cbn [flat_map map]. rewrite map_app. cbn [combine flat_map fst snd]. rewrite <- IH2.
    assert (X : forall l1 zs (l2 : list request) (m2 : list (frame + hend)), length zs = length l1 -> (forall p r, In p l1 -> g p r = false) ->
      flat_map (fun p => fate_ticks g (fst p) (snd p)) (combine (l1 ++ l2) (map inl (map FInteger zs) ++ m2)) = flat_map (fun p => fate_ticks g (fst p) (snd p)) (combine l2 m2)).
    { clear. induction l1 as [|p l1 IH]; intros zs l2 m2 L H; destruct zs as [|z zs]; try done. cbn [app map combine flat_map fst snd fate_ticks].
      rewrite H by by left. cbn [tick app]. apply IH; [by injection L|]. intros p' r I. apply H. by right. }
    assert (ONE : parts q = [q] \/ (forall r, g q r = false) /\ (forall p r, In p (parts q) -> g p r = false)).
    { destruct q; try (by left). all: destruct ks as [|k0 ks]; [by left|right]; split; [by intros r; rewrite ?G1, ?G2|].
      all: intros p r I; cbn [parts] in I; apply in_map_iff in I as (k1 & <- & _); by rewrite ?G1, ?G2. }
    destruct ONE as [E|[O1 O2]].
    + rewrite E in *. destruct zs as [|z [|z' zs]]; try done. cbn. rewrite Z.add_0_r. done.
    + rewrite O1. cbn [tick app]. by apply X.
Qed.
Lemma ticks_length {A} (g : A -> bool) l : length (flat_map (fun a => tick (g a)) l) = length (List.filter g l).
Proof. induction l as [|a l IH]; [done|]. cbn [flat_map List.filter]. rewrite app_length, IH. by destruct (g a). Qed.

(** * Among the clients that try to take the lock, if there are any, exactly one is told that it has it, and then the lock is taken. *)
Theorem C120_lock : forall en b m ins evs x k f,
  horder_ok (e_ho en) -> shows 0 b m -> orderly m -> Forall (Forall separable) ins ->
  leader_steps en evs (leader_start b ins) = Some x -> StronglySorted N.le (map fst evs) ->
  Forall (Forall (lock_use k f)) ins -> lock_free m k f -> all_idle (ld_cl x) ->
  let attempts := List.filter (fun p => tries k f (fst p)) (exchanged ins (ld_cl x)) in
  let winners := List.filter (fun p => wins k f (fst p) (snd p)) (exchanged ins (ld_cl x)) in
  match attempts with
  | [] => winners = [] /\ exists t, forall u, (t <= u)%N -> lock_free (db_view u (cs_db (ld_cl x))) k f
  | _ => length winners = 1 /\ exists t, forall u, (t <= u)%N -> lock_taken (db_view u (cs_db (ld_cl x))) k f
  end.
Proof.
  destruct C112_clients as (num & RC & C). intros en b m ins evs x k f HO S OR A H T U LA ID.
  destruct (C en b m ins evs x HO S OR A H T) as (l & fs & m' & t & R & SH & FO & DO & EX).
  assert (LC : forall j, j < length ins -> exists c, cs_conns (ld_cl x) !! j = Some c).
  { destruct (C112_one_more_client en b ins evs x H T) as (keys & evs' & y & replies & H' & _ & _ & _ & CO). intros j J. apply lookup_lt_is_Some.
    pose proof (csteps_length en evs' _ y H') as L. rewrite CO in L. cbn [cs_start cs_conns] in L. rewrite map_length, !app_length in L. cbn in L. lia. }
  assert (SRC : forall d, In d l -> exists q p, lock_use k f q /\ In p (parts q) /\ match d with Did s => sv_req s = p | Wiped _ _ => exists sync, p = QFlushall sync end).
  { intros d D. rewrite List.Forall_forall in DO. destruct (LC _ (DO d D)) as [c K]. destruct (EX _ c K) as (_ & _ & _ & _ & _ & _ & M & _).
    destruct (deed_source ins l d D M) as (q & p & Q & P & E). exists q, p. split; [|done]. rewrite List.Forall_forall in U.
    assert (IN : In (nth (doer d) ins []) ins) by (apply nth_In, DO, D). specialize (U _ IN). rewrite List.Forall_forall in U. by apply U. }
  assert (W : forall i s, ~ In (Wiped i s) l).
  { intros i s D. destruct (SRC _ D) as (q & p & Q & P & sync & ->). by apply (proj2 (parts_lock k f q _ P Q) sync). }
  destruct (lock_play en num k f m l fs m' R) with (h := false) as (L1 & L2); [|done|done|].
  { intros s D. destruct (SRC _ D) as (q & p & Q & P & ->). by apply (parts_lock k f q p P). }
  pose proof (play_length _ _ _ _ _ _ R) as LF.
  assert (CL : forall i, i < length ins -> exists qs rest ps c, cs_conns (ld_cl x) !! i = Some c /\ nth i ins [] = qs ++ rest /\ merged qs ps (k_out c) /\
    map (fun p => (sv_req (fst p), snd p)) (List.filter (fun p => Nat.eqb (sv_conn (fst p)) i) (combine (dids l) fs)) = combine (flat_map parts qs) (map inl ps)).
  { intros i I. destruct (LC i I) as [c K]. destruct (EX i c K) as (qs & rest & ps & E1 & E2 & _ & _ & E5). destruct (E5 (ID i c K)) as (_ & F & AC).
    exists qs, rest, ps, c. split; [done|]. split; [done|]. split; [done|]. destruct (client_pairs i l fs LF W) as (reqs & R1 & R2 & R3). rewrite F in R2.
    assert (E : reqs = flat_map parts qs); [|by rewrite <- E].
    assert (SC : flat_map script (flat_map parts qs) = map inl (flat_map parts qs)).
    { assert (Q : forall p, In p (flat_map parts qs) -> forall sync, p <> QFlushall sync).
      { intros p P. apply in_flat_map in P as (q & Q & P). eapply parts_lock; [exact P|]. rewrite List.Forall_forall in U.
        assert (IN : In (nth i ins []) ins) by (by apply nth_In). specialize (U _ IN). rewrite List.Forall_forall in U. apply U. rewrite E1. apply in_or_app. by left. }
      clear -Q. induction (flat_map parts qs) as [|p L IH]; [done|]. cbn [flat_map map]. rewrite IH by (intros p' I; apply Q; by right).
      assert (P : forall sync, p <> QFlushall sync) by (apply Q; by left). destruct p; try done. by destruct (P sync). }
    rewrite SC, R1 in AC. clear -AC. revert AC. generalize (flat_map parts qs). induction reqs as [|q reqs IH]; intros [|q' L] E; try done. injection E as -> E. f_equal. by apply IH. }
  assert (LTC : Forall (fun a : serial_entry * (frame + hend) => sv_conn (fst a) < length ins) (combine (dids l) fs)).
  { apply List.Forall_forall. intros [s r] I. apply in_combine_l in I. cbn [fst]. rewrite List.Forall_forall in DO. apply (DO (Did s)).
    clear -I. induction l as [|[s'|j s'] l IH]; cbn [dids] in I; [done| |right; by apply IH]. destruct I as [->|I]; [by left|right; by apply IH]. }
  assert (XH : forall g : request -> frame -> bool, (forall ks r, g (QDel ks) r = false) -> (forall ks r, g (QExists ks) r = false) ->
    length (flat_map (fun p => fate_ticks g (sv_req (fst p)) (snd p)) (combine (dids l) fs)) = length (List.filter (fun p => g (fst p) (snd p)) (exchanged ins (ld_cl x)))).
  { intros g G1 G2. rewrite <- (ticks_length (fun p => g (fst p) (snd p))). apply Permutation_length. unfold exchanged. rewrite (by_client (fun p => sv_conn (fst p)) _ _ _ LTC), flat_map_twice.
    apply Permutation_refl', flat_map_ext_in. intros i I. apply in_seq in I. destruct (CL i) as (qs & rest & ps & c & K & E1 & MG & E2); [lia|].
    destruct (merged_ticks g _ _ _ G1 G2 MG) as (M1 & M2). unfold replies_to. rewrite K, E1.
    transitivity (flat_map (fun p => fate_ticks g (fst p) (snd p)) (combine (flat_map parts qs) (map inl ps : list (frame + hend)))).
    - rewrite <- E2. clear. induction (List.filter _ _) as [|p L IH]; [done|]. cbn [flat_map map fst snd]. by rewrite IH.
    - rewrite M2. clear -M1. revert M1. generalize (k_out c). induction qs as [|q qs IH]; intros [|r L] E; try done; [by destruct rest|].
      cbn [app combine flat_map fst snd]. f_equal. apply IH. by injection E. }
  pose proof (XH (wins k f) (fun _ _ => eq_refl) (fun _ _ => eq_refl)) as XW. pose proof (XH (fun q _ => tries k f q) (fun _ _ => eq_refl) (fun _ _ => eq_refl)) as XT.
  cbv zeta in *. rewrite XT in L1, L2. rewrite XW in L2. cbn [orb fst snd] in *.
  assert (END : forall h, lock_at m' k f h -> exists t, forall u, (t <= u)%N -> lock_at (db_view u (cs_db (ld_cl x))) k f h).
  { intros h L. exists t. intros u UU. assert (E : db_view u (cs_db (ld_cl x)) k = m' k) by (rewrite SH by done; by apply (lock_at_later _ _ _ f h)).
    unfold lock_at, lock_taken, lock_free in *. destruct h; by rewrite E. }
  destruct (List.filter (fun p => tries k f (fst p)) (exchanged ins (ld_cl x))) as [|a at']; cbn [length] in *.
  - split; [|exact (END false L1)]. destruct (List.filter _ _); done.
  - split; [exact L2|exact (END true L1)].
Qed.
Print Assumptions C120_lock.

(** ** Concrete case *)
(** Two clients try to take the lock at the same time, a third one looks who has it. *)
Definition c120_ins : list (list request) :=
  [[QHsetnx cl_a (bs "owner") (SBytes (bs "0"))]; [QHsetnx cl_a (bs "owner") (SBytes (bs "1"))]; [QHget cl_a (bs "owner")]].
Definition c120_turns : list (N * turn) :=
  repeat (1%N, LConn 0) 1 ++ repeat (2%N, LConn 1) 3 ++ repeat (3%N, LConn 0) 5 ++ repeat (4%N, LConn 2) 5 ++ repeat (5%N, LConn 1) 3.
Example C120_lock_case : Forall (Forall separable) c120_ins /\ Forall (Forall (lock_use cl_a (bs "owner"))) c120_ins /\
  lock_free (fun _ => None) cl_a (bs "owner") /\ StronglySorted N.le (map fst c120_turns) /\
  option_map (fun x => map (fun k => (k_pc k, k_out k)) (cs_conns (ld_cl x))) (leader_steps ex_env c120_turns (leader_start db_empty c120_ins)) =
  Some [(KIdle, [FInteger 0]); (KIdle, [FInteger 1]); (KIdle, [FBulk (bs "1")])].
Proof.
  split; [by repeat constructor|]. split.
  { repeat apply List.Forall_cons; try apply List.Forall_nil; [left; by eexists|left; by eexists|]. right. split; [done|]. by intros []. }
  split; [by left|]. split; [repeat constructor; discriminate|]. vm_compute. reflexivity.
Qed.
