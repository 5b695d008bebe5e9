(** C111: many clients, FLUSHALL included. *)
From Verif Require Import FlushFacts PropWhole PropParts PropTalk PropClients WireFacts.

(** * However many connections interleave, there is one order of their deeds (a request with at most one command is one deed,
    FLUSHALL empties the slots one at a time) that gives the same database and the same replies; [L n] is the order after
    [n] steps, and it only ever grows at its end. *)
Theorem C111_one_at_a_time en b ins evs x :
  Forall (Forall brief) ins -> csteps en evs (cs_start b ins) = Some x ->
  exists L : nat -> list deed,
    (forall n, n <= length evs -> exists y,
       csteps en (firstn n evs) (cs_start b ins) = Some y /\ accounts en b ins (L n) y /\
       Forall (fun s => forall j, In (sv_clock s j) (map snd (firstn n evs))) (dids (L n)) /\
       (StronglySorted N.le (map snd (firstn n evs)) -> StronglySorted N.le (map (fun s => sv_clock s 1) (dids (L n))))) /\
    forall n m, n <= m <= length evs -> precedes (L n) (L m).
Proof.
  intros SI H. assert (G : exists L : nat -> list deed,
    (forall n, n <= length evs -> exists y, csteps en (firstn n evs) (cs_start b ins) = Some y /\
       clients_fine en b ins (map snd (firstn n evs)) (L n) y /\ Forall (fun k => Forall brief (k_in k)) (cs_conns y)) /\
    forall n m, n <= m <= length evs -> precedes (L n) (L m)).
  2: { destruct G as (L & A & B). exists L. split; [|done]. intros n N. destruct (A n N) as (y & Y & OK & _). exists y. split; [done|].
       split; [by eapply fine_accounts|]. by destruct OK as (_ & [T1 T2] & _). }
  revert x H. induction evs as [|[i t] evs IH] using rev_ind; intros x H.
  - exists (fun _ => []). split.
    + intros n _. exists (cs_start b ins). rewrite firstn_nil. split; [done|]. split; [apply fine_start|]. cbn [cs_start cs_conns]. by apply List.Forall_map.
    + intros. exists []. done.
  - rewrite csteps_app in H. destruct (csteps en evs (cs_start b ins)) as [y|] eqn:Y; [|done].
    destruct (IH y eq_refl) as (L & A & B). destruct (A (length evs)) as (y' & Y' & OK & BK); [lia|]. rewrite firstn_all in Y', OK.
    rewrite Y in Y'. injection Y' as <-. cbn [csteps] in H. destruct (cstep en (i, t) y) as [z|] eqn:Z; [|done]. injection H as ->.
    destruct (fine_step en b ins _ _ _ _ _ _ SI BK OK Z) as (l & BL & OKL). pose proof (inputs_step _ _ _ _ _ Z BK) as BK2.
    exists (fun n => if decide (n <= length evs) then L n else l). rewrite app_length. cbn [length]. split.
    + intros n N. destruct (decide (n <= length evs)) as [C|C].
      * rewrite firstn_app. replace (n - length evs) with 0 by lia. cbn [firstn]. rewrite app_nil_r. by apply A.
      * rewrite firstn_all2 by (rewrite app_length; cbn; lia). exists x. rewrite csteps_app, Y. cbn [csteps]. rewrite Z. split; [done|].
        by rewrite map_app.
    + intros n m N. destruct (decide (n <= length evs)) as [C|C], (decide (m <= length evs)) as [C'|C']; [apply B; lia| |lia|].
      * eapply precedes_trans; [apply (B n (length evs)); lia|exact BL].
      * exists []. by rewrite app_nil_r.
Qed.
Print Assumptions C111_one_at_a_time.

(** ** On the store *)
Lemma shows_wiped t b m s : shows t b m -> shows t (db_set s dict_empty b) (without_slot s m).
Proof.
  intros S t' k L. unfold db_view, db_set, later, without_slot. destruct (N.eqb_spec (get_slot k) s) as [E|E].
  - by rewrite decide_True.
  - rewrite decide_False by done. exact (S t' k L).
Qed.
Lemma orderly_wiped s m : orderly m -> orderly (without_slot s m).
Proof. intros O k x d. unfold without_slot. destruct (decide _); [done|apply O]. Qed.
Lemma last_shift {A} (l : list A) : forall x y, List.last (x :: l) y = List.last l x.
Proof. induction l as [|z l IH]; intros x y; [done|]. change (List.last (x :: z :: l) y) with (List.last (z :: l) y). by rewrite (IH z y), <- (IH z x). Qed.
Lemma playing en l : forall t e m,
  horder_ok (e_ho en) -> shows t (ef_db e) m -> orderly m -> forward t (dids l) -> Forall (fun s => fair (sv_req s)) (dids l) ->
  let '(e', rs) := deeds en l e in
  exists m', map fst rs = map sv_conn (dids l) /\ play en read_int m l (map snd rs) m' /\ orderly m' /\
    shows (List.last (map (fun s => sv_clock s 1%nat) (dids l)) t) (ef_db e') m'.
Proof.
  induction l as [|[s|i s] l IH]; intros t e m HO S OR F FA.
  - cbn. exists m. split; [done|]. split; [constructor|done].
  - cbn [deeds dids] in *. inversion FA as [|? ? FA1 FA2]; subst.
    inversion F as [|? ? F1 F2]; subst. cbn [map] in F1, F2. inversion F2 as [|? ? L1 L2]; subst.
    cbn [map]. rewrite last_shift.
    assert (FL : (exists sync, sv_req s = QFlushall sync) \/ forall sync, sv_req s <> QFlushall sync) by (destruct (sv_req s); try (by right); left; eauto).
    destruct FL as [(sync & Q)|NF].
    + assert (E : serve_deed en s e = (e, inl frame_ok)) by (unfold serve_deed; by rewrite Q). rewrite E.
      assert (S1 : shows (sv_clock s 1%nat) (ef_db e) m) by (intros t' k L; apply S; lia).
      specialize (IH (sv_clock s 1%nat) e m HO S1 OR F1 FA2). destruct (deeds en l e) as [e2 rs].
      destruct IH as (m' & I1 & I2 & I3 & I4). exists m'. cbn [map fst snd]. rewrite I1. split; [done|]. split; [by eapply play_flushed|]. done.
    + rewrite serve_deed_request by done. pose proof (orderly_later (sv_clock s 1%nat) m OR) as OR1.
      destruct (fair_explained en read_int (sv_clock s 0%nat) (sv_clock s 1%nat) (sv_req s) _ FA1 OR1) as (m1 & P & M).
      pose proof (orderly_fates _ _ _ _ _ _ _ _ OR1 M) as OR2.
      destruct (fates_served en (sv_clock s) (sv_req s) e t m m1 P HO S L1 M) as (e1 & r & E & R & S1). rewrite E.
      specialize (IH (sv_clock s 1%nat) e1 m1 HO S1 OR2 F1 FA2). destruct (deeds en l e1) as [e2 rs].
      destruct IH as (m' & I1 & I2 & I3 & I4). exists m'. cbn [map fst snd]. rewrite I1. split; [done|]. split; [by eapply play_did|]. done.
  - cbn [deeds dids] in *.
    pose proof (IH t (Effects (db_set s dict_empty (ef_db e)) (ef_exp e) (ef_fwd e)) (without_slot s m) HO (shows_wiped _ _ _ _ S) (orderly_wiped _ _ OR) F FA) as G.
    destruct (deeds en l _) as [e' rs]. destruct G as (m' & I1 & I2 & I3 & I4). exists m'. split; [done|]. split; [by apply play_wiped|]. done.
Qed.

Lemma parts_brief q : separable q -> Forall brief (parts q).
Proof.
  intros D.
  assert (FL : (exists sync, q = QFlushall sync) \/ divisible q) by (destruct q; try (by right); left; by eexists).
  destruct FL as [(sync & ->)|DQ].
  - apply Forall_singleton. right. by exists sync.
  - eapply List.Forall_impl; [|exact (parts_single q DQ)]. by left.
Qed.
Lemma script_flush sync : script (QFlushall sync) = map inr all_slots ++ [inl (QFlushall sync)].
Proof. reflexivity. Qed.
Lemma in_script q qs : In (inl q) (flat_map script qs) -> In q qs.
Proof.
  intros H. apply in_flat_map in H as (q' & M1 & M2). assert (q' = q) as <-; [|done].
  destruct q'; try (destruct M2 as [M2|[]]; by injection M2).
  rewrite script_flush in M2. apply in_app_or in M2 as [M2|[M2|[]]]; [|by injection M2]. apply in_map_iff in M2 as (? & ? & _). done.
Qed.
Lemma nth_parts i ins : nth i (map (flat_map parts) ins) [] = flat_map parts (nth i ins []).
Proof. revert i; induction ins as [|l ins IH]; intros [|i]; [done|done|done|]. apply IH. Qed.
(** Any number of clients with any requests whatsoever (no request has 2^63 keys). *)
Theorem C111_clients : exists num, reads_counters num /\ forall en b m ins evs x,
  horder_ok (e_ho en) -> shows 0 b m -> orderly m -> Forall (Forall separable) ins ->
  csteps en evs (cs_start b ins) = Some x -> StronglySorted N.le (map snd evs) ->
  exists l fs m' t, play en num m l fs m' /\ orderly m' /\ shows t (cs_db x) m' /\ forward 0 (dids l) /\ Forall (fun d => doer d < length ins) l /\
    forall i k, cs_conns x !! i = Some k -> exists qs rest ps,
      nth i ins [] = qs ++ rest /\ merged qs ps (k_out k) /\ (exists last, fated i (dids l) fs = map inl ps ++ last) /\
      (exists more, flat_map script (flat_map parts (nth i ins [])) = acts i l ++ more) /\
      (k_pc k = KIdle -> rest = k_in k /\ fated i (dids l) fs = map inl ps /\ acts i l = flat_map script (flat_map parts qs)).
Proof.
  exists read_int. split; [apply read_int_counters|]. intros en b m ins0 evs0 x0 HO S OR A0 H0 T0.
  destruct (C75_parts en b ins0 evs0 x0 A0 H0) as (evs & x & H & E1 & _ & _ & (_ & T') & AP). pose proof (T' T0) as T. clear T'.
  set (ins := map (flat_map parts) ins0) in *.
  assert (A : Forall (Forall (fun q => brief q /\ fair q)) ins).
  { apply List.Forall_map. eapply List.Forall_impl; [|exact A0]. intros qs Q. apply List.Forall_forall. intros p P. apply in_flat_map in P as (q & IN & P).
    rewrite List.Forall_forall in Q. pose proof (parts_brief q (Q q IN)) as D3. pose proof (fair_parts q) as D4. rewrite List.Forall_forall in D3, D4. split; [by apply D3|by apply D4]. }
  assert (SI : Forall (Forall brief) ins) by (eapply List.Forall_impl; [|exact A]; intros qs Q; eapply List.Forall_impl; [|exact Q]; by intros ? []).
  destruct (C111_one_at_a_time en b ins evs x SI H) as (L & L1 & _). destruct (L1 (length evs)) as (y & Y & EX & _ & SO); [lia|].
  rewrite firstn_all in Y, SO. rewrite H in Y. injection Y as <-. specialize (SO T). set (l := L (length evs)) in *. clearbody l. clear L L1.
  unfold accounts in EX. pose proof (playing en l 0%N (Effects b [] []) m HO S OR) as C.
  destruct (deeds en l (Effects b [] [])) as [e rs]. destruct EX as (DB & CL & CO).
  destruct C as (m' & C1 & C2 & C3 & C4).
  { constructor; [done|]. apply List.Forall_forall. lia. }
  { apply List.Forall_forall. intros s IN.
    assert (IN' : In (Did s) l).
    { clear -IN. induction l as [|[s'|i s'] l IH]; cbn [dids] in IN; [done| |right; by apply IH]. destruct IN as [->|IN]; [by left|right; by apply IH]. }
    rewrite List.Forall_forall in CL. pose proof (CL _ IN') as LT. cbn [doer] in LT. apply lookup_lt_is_Some in LT as [k K].
    destruct (CO _ _ K) as [(rest & R) _].
    assert (M : In (inl (sv_req s)) (flat_map script (nth (sv_conn s) ins []))).
    { rewrite R. apply in_or_app. left. unfold acts. apply in_flat_map. exists (Did s). split; [done|]. rewrite Nat.eqb_refl. by left. }
    apply in_script in M as M1.
    rewrite List.Forall_forall in A. destruct (nth_in_or_default (sv_conn s) ins []) as [I|I]; [|by rewrite I in M1].
    specialize (A _ I). rewrite List.Forall_forall in A. by apply A. }
  exists l, (map snd rs), m', (List.last (map (fun s => sv_clock s 1%nat) (dids l)) 0%N). split; [done|]. split; [done|]. split; [by rewrite <- E1, <- DB|].
  split; [constructor; [done|]; apply List.Forall_forall; lia|].
  split; [by rewrite (csteps_length en evs _ x H) in CL; unfold ins in CL; cbn [cs_start cs_conns] in CL; rewrite !map_length in CL|].
  intros i k K. destruct (AP i k K) as (k' & qs & rest & ps & K' & E & M & (la & LA) & I). destruct (CO i k' K') as ((more & M1) & (la2 & L2 & _) & I2).
  rewrite (fated_answered i (dids l) rs C1). unfold ins in M1, I2. rewrite nth_parts in M1, I2.
  exists qs, rest, ps. split; [done|]. split; [done|]. split; [rewrite L2, LA, map_app, <- app_assoc; by eexists|]. split; [by exists more|].
  intros KI. destruct (I KI) as (-> & PI & O & IN). destruct (I2 PI) as [O2 M2]. split; [done|]. split; [by rewrite O2, O|].
  rewrite E, !flat_map_app, IN in M2. by apply app_inv_tail in M2.
Qed.
Print Assumptions C111_clients.

(** ** What FLUSHALL guarantees *)
Lemma means_creates en num t0 t1 q k y y' P : means_key en num t0 t1 q k y y' P -> y = None -> y' <> None -> creates q = Some k.
Proof.
  intros M Y Y'. destruct M; try done.
  all: try (match goal with H : stored _ _ ?s = None |- _ => destruct s; [done|] end).
  all: try (by destruct Y').
  all: try (destruct q; try discriminate H; injection H as -> <-; cbn in Y' |- *; try done; by destruct Y').
  all: try (destruct q; try discriminate H; by injection H as ->).
  by subst y.
Qed.
Lemma fate_creates en num t0 t1 q k y y' P : fate_key en num t0 t1 q k y y' P -> y = None -> y' <> None -> creates q = Some k.
Proof.
  intros M Y Y'. destruct M; try done; try (by destruct Y'); [by eapply means_creates|].
  destruct s as [s|]; [done|]. assert (exists ns nx gl incr, o = TAdd ns nx gl incr) as (ns & nx & gl & incr & ->).
  { destruct o; try (by destruct Y'). by eexists _, _, _, _. }
  inversion H; subst; try done; match goal with H : read_map _ ?r = Reads _ |- _ => by destruct r end.
Qed.
Lemma fates_creates en num t0 t1 q m m1 P k : (forall sync, q <> QFlushall sync) -> fates en num t0 t1 q m m1 P ->
  m k = None -> m1 k <> None -> creates q = Some k.
Proof.
  intros NF M N S. destruct M as [q j m y P F|q m m' P M|s m|m|sub m H|sub m H|m|m]; try done.
  - unfold update in S. destruct (decide (k = j)) as [->|J]; [|done]. by eapply fate_creates.
  - destruct M as [q j m y P F|q m f F|sub ps m F|sub ps m F|sync m]; try done.
    unfold update in S. destruct (decide (k = j)) as [->|J]; [|done]. by eapply means_creates.
Qed.
Lemma play_creates en num m l fs m' k : play en num m l fs m' -> m k = None -> m' k <> None ->
  exists s, In (Did s) l /\ creates (sv_req s) = Some k.
Proof.
  induction 1 as [m|s l m m1 P r rs m2 NF F R _ IH|s sync l m rs m2 Q _ IH|i s l m rs m2 _ IH]; intros N S; [done| | |].
  - destruct (m1 k) as [v|] eqn:E.
    + exists s. split; [by left|]. eapply (fates_creates _ _ _ _ _ _ _ _ k NF F); [|by rewrite E]. unfold later. by rewrite N.
    + destruct (IH eq_refl S) as (s' & I & C). exists s'. split; [by right|done].
  - destruct (IH N S) as (s' & I & C). exists s'. split; [by right|done].
  - destruct IH as (s' & I & C); [unfold without_slot; by destruct (decide _)|done|]. exists s'. split; [by right|done].
Qed.
Lemma play_split en num la : forall m lb fs m', play en num m (la ++ lb) fs m' -> exists m1 fs1, play en num m1 lb fs1 m'.
Proof.
  induction la as [|d la IH]; intros m lb fs m' H; [by exists m, fs|]. inversion H; subst; eapply IH; eassumption.
Qed.
(** What is there after its slot was emptied has been stored by a later request. *)
Lemma C111_emptied en num m la i k lb fs m' : play en num m (la ++ Wiped i (get_slot k) :: lb) fs m' -> m' k <> None ->
  exists s, In (Did s) lb /\ creates (sv_req s) = Some k.
Proof.
  intros H S. destruct (play_split _ _ _ _ _ _ _ H) as (m1 & fs1 & H1). inversion H1; subst. eapply play_creates; [eassumption| |done].
  unfold without_slot. by rewrite decide_True.
Qed.
Lemma slots_from_in n : forall i j, (i <= j < i + N.of_nat n)%N -> In j (slots_from i n).
Proof. induction n as [|n IH]; intros i j H; [lia|]. cbn [slots_from]. destruct (decide (i = j)) as [->|N]; [by left|right]. apply IH. lia. Qed.
Lemma get_slot_all k : In (get_slot k) all_slots.
Proof. unfold all_slots. apply slots_from_in. pose proof (get_slot_lt k). rewrite N2Nat.id. lia. Qed.

(** Once FLUSHALL is among the deeds of connection [i], what is there was stored behind it. *)
Lemma flushed_before en num m l fs m' i qs sync k : play en num m l fs m' -> acts i l = flat_map script (flat_map parts qs) -> In (QFlushall sync) qs ->
  m' k <> None -> exists la lb s, l = la ++ Wiped i (get_slot k) :: lb /\ In (Did s) lb /\ creates (sv_req s) = Some k.
Proof.
  intros P AC IN NN.
  assert (W : In (inr (get_slot k)) (acts i l)).
  { rewrite AC. apply in_flat_map. exists (QFlushall sync). split.
    - apply in_flat_map. exists (QFlushall sync). split; [done|]. by left.
    - rewrite script_flush. apply in_or_app. left. apply in_map, get_slot_all. }
  unfold acts in W. apply in_flat_map in W as (d & D1 & D2).
  assert (d = Wiped i (get_slot k)) as ->.
  { destruct d as [s|j s]; [destruct (Nat.eqb _ _); by destruct D2|]. destruct (Nat.eqb_spec j i) as [->|]; [|by destruct D2].
    destruct D2 as [D2|[]]. by injection D2 as ->. }
  apply in_split in D1 as (la & lb & ->). destruct (C111_emptied _ _ _ _ _ _ _ _ _ P NN) as (s & S1 & S2). by exists la, lb, s.
Qed.
(** Whatever the other clients did in the meantime: once FLUSHALL is answered, every key that is there was stored by a request that was
    executed after the slot of that key had been emptied; in particular, a key nobody stores is gone. *)
Theorem C111_flushall : exists num, reads_counters num /\ forall en b m ins evs x i kc qs sync,
  horder_ok (e_ho en) -> shows 0 b m -> orderly m -> Forall (Forall separable) ins ->
  csteps en evs (cs_start b ins) = Some x -> StronglySorted N.le (map snd evs) ->
  cs_conns x !! i = Some kc -> k_pc kc = KIdle -> nth i ins [] = qs ++ k_in kc -> In (QFlushall sync) qs ->
  exists l fs m' t, play en num m l fs m' /\ shows t (cs_db x) m' /\
    forall k, m' k <> None -> exists la lb s, l = la ++ Wiped i (get_slot k) :: lb /\ In (Did s) lb /\ creates (sv_req s) = Some k.
Proof.
  destruct C111_clients as (num & RC & C). exists num. split; [done|]. intros en b m ins evs x i kc qs sync HO S OR A H T K KI E IN.
  destruct (C en b m ins evs x HO S OR A H T) as (l & fs & m' & t & P & _ & SH & _ & _ & CO). exists l, fs, m', t. split; [done|]. split; [done|].
  intros k NN. destruct (CO i kc K) as (qs' & rest & ps & E' & _ & _ & _ & I). destruct (I KI) as (-> & _ & AC).
  rewrite E in E'. apply app_inv_tail in E' as <-. by eapply flushed_before.
Qed.
Print Assumptions C111_flushall.

(** ** Concrete cases *)
(** While FLUSHALL is on its way, the other client stores a key whose slot has already been emptied and one whose slot has not:
    the first stays, the second goes, and deleting both finds one. *)
Definition c111_ins : list (list request) := [[QFlushall false]; [cl_set cl_b; cl_set cl_a; QDel [cl_a; cl_b]]].
Definition c111_evs : list (nat * N) :=
  repeat (0, 5%N) (N.to_nat 5001) ++ repeat (1, 6%N) 12 ++ repeat (0, 7%N) (2 + N.to_nat 11384) ++ repeat (1, 8%N) 9.
Example C111_clients_case :
  Forall (Forall separable) c111_ins /\ StronglySorted N.le (map snd c111_evs) /\
  get_slot cl_b = 3300%N /\ get_slot cl_a = 15495%N /\
  option_map (fun x => map (fun k => (k_in k, k_pc k, k_out k)) (cs_conns x)) (csteps ex_env c111_evs (cs_start db_empty c111_ins)) =
    Some [([], KIdle, [frame_ok]); ([], KIdle, [frame_ok; frame_ok; FInteger 1])].
Proof.
  split; [by repeat constructor|]. split.
  { unfold c111_evs. rewrite !map_app.
    assert (R : forall i t n, map snd (repeat (i, t) n : list (nat * N)) = repeat t n) by (intros i t n; induction n; cbn; by f_equal). rewrite !R.
    assert (SR : forall (t : N) n l, Forall (fun u => (t <= u)%N) l -> StronglySorted N.le l -> StronglySorted N.le (repeat t n ++ l)).
    { intros t n l F SO. induction n as [|n IH]; [done|]. cbn. constructor; [done|]. apply List.Forall_app. split; [|done].
      apply List.Forall_forall. intros u U. apply repeat_spec in U as ->. lia. }
    assert (FR : forall (t u : N) n, (t <= u)%N -> Forall (fun u => (t <= u)%N) (repeat u n)).
    { intros t u n L. apply List.Forall_forall. intros v V. apply repeat_spec in V as ->. done. }
    apply SR; [repeat (apply List.Forall_app; split); by apply FR|]. apply SR; [apply List.Forall_app; split; by apply FR|].
    apply SR; [by apply FR|]. rewrite <- (app_nil_r (repeat 8%N 9)). apply SR; constructor. }
  split; [by vm_compute|]. split; [by vm_compute|]. vm_compute. reflexivity.
Qed.
Example C111_flushall_case : In (QFlushall false) (nth 0 c111_ins []) /\ creates (cl_set cl_b) = Some cl_b /\ creates (QGet cl_b) = None.
Proof. split; [by left|done]. Qed.
