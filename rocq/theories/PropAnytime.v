(** C117: every execution is a run of the machine also if the clock steps back. *)
From Verif Require Export SpecAnytime.
From Verif Require Import AnytimeFacts LeaderFacts FlushFacts PropFlush PropWhole PropTwo PropTalk PropParts MeaningFacts CollFacts SimpleFacts TypeFacts SerdeFacts DbFacts CmdFacts TextFacts ClientsFacts PropClients ZsetInv.

Lemma alive_expired now v : ((0 <? v_exp v) && (v_exp v <=? now) = negb (alive now v))%N.
Proof.
  unfold alive. destruct (N.eqb_spec (v_exp v) 0), (N.ltb_spec 0 (v_exp v)), (N.ltb_spec now (v_exp v)), (N.leb_spec (v_exp v) now); cbn; try done; lia.
Qed.
(** What a write leaves under its key when nothing is visible there afterwards. *)
Definition leaves (now : N) (w : wreq) (d : dict) : option (data * N) :=
  let y := view now d (wkey w) in
  match w with
  | WDel _ => None
  | WSet _ x ea nx => if set_stores nx y then Some (DScalar x, set_deadline ea y) else contents d (wkey w)
  | WExpire _ new _ _ => match y with Some (x, _) => Some (x, new) | None => contents d (wkey w) end
  | WRestore r =>
      match deserialize get_data (r_value r), y with
      | OOk x, None => Some (x, r_exp r)
      | OOk x, Some _ => if r_replace r then Some (x, r_exp r) else contents d (wkey w)
      | _, _ => contents d (wkey w)
      end
  | _ => contents d (wkey w)
  end.
Lemma wapply_dead now w d : (forall k, w <> WDel k) -> (forall k x ea nx, w <> WSet k x ea nx) -> (forall k a nx gl, w <> WExpire k a nx gl) -> (forall r, w <> WRestore r) ->
  (exists v', inner (fst (fst (wapply now w d))) !! wkey w = Some v' /\ alive now v' = true) \/
  contents (fst (fst (wapply now w d))) (wkey w) = contents d (wkey w).
Proof.
  intros N1 N2 N3 N4. destruct w; try (by destruct (N1 k)); try (by destruct (N2 k x ea nx)); try (by destruct (N3 k at_ nx gl)); try (by destruct (N4 r)).
  all: cbn [wapply wkey]; cmd_unfold; unfold contents, dict_remove, dict_get, get_or_insert_with, dict_insert, dict_put, fresh_value, with_data, touch in *.
  all: destruct (inner d !! k) as [v|] eqn:E; rewrite ?alive_expired; try (destruct (alive now v) eqn:AL).
  all: cbn.
  all: repeat case_match; subst; cbn.
  all: repeat match goal with H : (_, _) = (_, _) |- _ => injection H as ? ?; subst end; cbn.
  all: rewrite ?lookup_insert, ?lookup_delete, ?E; cbn; first [by right|by left; eexists|by left; eexists; split; [reflexivity|exact AL]].
Qed.
Lemma wapply_leaves now w d : view now (fst (fst (wapply now w d))) (wkey w) = None -> contents (fst (fst (wapply now w d))) (wkey w) = leaves now w d.
Proof.
  intros V.
  assert (G : (forall k, w <> WDel k) -> (forall k x ea nx, w <> WSet k x ea nx) -> (forall k a nx gl, w <> WExpire k a nx gl) -> (forall r, w <> WRestore r) ->
    contents (fst (fst (wapply now w d))) (wkey w) = contents d (wkey w)).
  { intros N1 N2 N3 N4. destruct (wapply_dead now w d N1 N2 N3 N4) as [(v' & I & A)|C]; [|done]. unfold view, contents in V. rewrite I in V. cbn in V.
    apply alive_lives in A. by rewrite decide_True in V. }
  destruct w; try (by apply G); clear G; cbn [wapply wkey leaves] in *.
  - destruct (del_apply k d) as [[d' r] u] eqn:E. by destruct (del_spec _ _ _ _ _ E) as (_ & C & _).
  - destruct (expire_apply now k at_ nx gl d) as [[d' b] u] eqn:E. destruct (expire_spec _ _ _ _ _ _ _ _ _ E) as [_ C]. cbn [fst] in *.
    destruct (view now d k) as [[x ex]|] eqn:VV; [|by destruct C]. destruct C as [_ C]. destruct b; [done|]. unfold view in V, VV. rewrite C in V. congruence.
  - destruct (set_apply now k x ea nx d) as [[d' r] u] eqn:E. destruct (set_spec _ _ _ _ _ _ _ _ _ E) as (_ & C & _). cbn [fst] in *. by destruct (set_stores _ _).
  - assert (F : forall y, fst (fst (let '(d', o, e) := restore_apply now r d in (d', outcome_map (fun _ : unit => PUnit) o, e))) = y -> fst (fst (restore_apply now r d)) = y).
    { intros y <-. by destruct (restore_apply now r d) as [[? ?] ?]. }
    rewrite <- (F _ eq_refl) in V |- *. clear F.
    assert (M : (forall x, deserialize get_data (r_value r) <> OOk x) -> contents (fst (fst (restore_apply now r d))) (r_key r) = contents d (r_key r)).
    { intros M. destruct (restore_malformed now r d M) as (_ & [_ S] & _). by apply S. }
    destruct (deserialize get_data (r_value r)) as [x| |] eqn:D; [|by apply M|by apply M]. clear M.
    destruct (view now d (r_key r)) as [[z dz]|] eqn:VV.
    + destruct (r_replace r) eqn:R; [by apply (restore_view now r d (or_introl R))|].
      rewrite (restore_busy _ _ _ _ _ VV R). cbn [fst]. destruct (dict_get_same now (r_key r) d) as [_ S]. by apply S.
    + by apply (restore_view now r d (or_intror VV)).
Qed.

(** Requests and writes. *)
Definition puts_of (w : wreq) (m : store) : option (bytes * option (data * N)) :=
  match w with
  | WDel k => Some (k, None)
  | WSet k x ea nx => if set_stores nx (m k) then Some (k, Some (DScalar x, set_deadline ea (m k))) else None
  | WExpire k new _ _ => match m k with Some (x, _) => Some (k, Some (x, new)) | None => None end
  | WRestore r =>
      match deserialize get_data (r_value r), m (r_key r) with
      | OOk x, None => Some (r_key r, Some (x, r_exp r))
      | OOk x, Some _ => if r_replace r then Some (r_key r, Some (x, r_exp r)) else None
      | _, _ => None
      end
  | _ => None
  end.
Lemma abind_two_cmds {A} (f : bytes -> attempt A) (g : A * A -> list cmd) lo hi cs :
  abind (two f lo hi) (fun r => AOk (PCmds (g r))) = AOk (PCmds cs) -> exists r, cs = g r.
Proof. destruct (two f lo hi) as [r| |]; cbn; try done. intros H. injection H as <-. by exists r. Qed.
Lemma plan_puts t q cs m : plan_of t q = AOk (PCmds cs) -> (length cs <= 1)%nat ->
  puts t q m = match cs with CWrite w :: _ => puts_of w m | _ => None end.
Proof.
  intros H L.
  destruct q; cbn [plan_of] in H;
    repeat match goal with
    | H : (match ?x with ByRank => _ | _ => _ end) = _ |- _ => destruct x
    | H : abind (two _ _ _) _ = AOk (PCmds _) |- _ => apply abind_two_cmds in H as [? ->]
    | H : (if ?b then _ else _) = _ |- _ => destruct b
    | H : (match ?x with [] => _ | _ :: _ => _ end) = _ |- _ => destruct x
    end; try discriminate H; try (injection H as <-); try reflexivity.
  all: cbn [puts puts_of map setex_asks expire_wants set_stores set_deadline r_value r_key r_replace] in *.
  - destruct ks as [|k [|k' ks]]; cbn in L; [done|done|lia].
  - by destruct ks.
  - destruct (m k) as [[x d]|]; [|done]. rewrite <- ?add_mul_mod. unfold add_u64. by rewrite N.add_comm.
  - destruct (m k) as [[x d]|]; [|done]. rewrite <- ?add_mod. unfold add_u64. by rewrite N.add_comm.
  - destruct (set_stores _ _); [|done]. do 3 f_equal. unfold set_asks. destruct (so_expires o); cbn [set_expires_at set_deadline]; rewrite ?add_mul_mod, ?add_mod; done.
  - by rewrite add_mul_mod.
  - assert (D : r_exp (restore_request t k ttl v o) = restore_deadline t ttl o).
    { unfold restore_request, restore_deadline. cbn [r_exp]. destruct (re_absttl o); [done|].
      destruct (N.eqb_spec ttl 0) as [->|N]; [done|]. by replace (0 <? ttl)%N with true by lia. }
    rewrite D. reflexivity.
Qed.
Lemma plan_puts_none t q m : (forall cs, plan_of t q <> AOk (PCmds cs)) -> puts t q m = None.
Proof.
  intros H. destruct q; try reflexivity.
  all: try (exfalso; by eapply H).
Qed.
Lemma leaves_puts now w d m : m (wkey w) = view now d (wkey w) ->
  leaves now w d = match puts_of w m with Some (k, v) => v | None => contents d (wkey w) end.
Proof.
  intros E. destruct w; try reflexivity; cbn [leaves puts_of wkey] in *; rewrite E.
  - by destruct (view now d k) as [[x ex]|].
  - by destruct (set_stores _ _).
  - destruct (deserialize _ _); [|done|done]. destruct (view now d (r_key r)); by destruct (r_replace r).
Qed.
Lemma puts_of_key w m k v : puts_of w m = Some (k, v) -> k = wkey w.
Proof.
  destruct w; cbn [puts_of wkey]; try done; repeat case_match; try done; intros HX; by injection HX as <- _.
Qed.
Lemma request_raw en clock q e m j : single q -> (forall sync, q <> QFlushall sync) -> holds (ef_db e) m ->
  db_view (clock 1%nat) (ef_db (fst (serve_request en clock alone q e))) j = None ->
  db_contents (ef_db (fst (serve_request en clock alone q e))) j =
    match puts (clock 0%nat) q (later (clock 1%nat) m) with Some (k, v) => if decide (j = k) then v else m j | None => m j end.
Proof.
  intros SI NF H V. pose proof (SI (clock 0%nat)) as L.
  destruct (plan_of (clock 0%nat) q) as [[cs|]|x|] eqn:PL; [|done| |].
  - rewrite (plan_puts _ _ _ _ PL L). destruct cs as [|c [|c' cs]]; [| |cbn in L; lia].
    + assert (E : ef_db (fst (serve_request en clock alone q e)) = ef_db e).
      { destruct q; unfold serve_request; try (rewrite PL); cbn [run_cmds]; try done; by destruct (abind _ _). }
      rewrite E. apply H.
    + destruct (serve_any en clock alone q e c PL) as [E _]. rewrite E in V |- *. clear E. unfold alone in *.
      destruct (decide (j = ckey c)) as [->|J].
      * destruct (db_cmd_refines_slot (e_ho en) (clock 1%nat) c (ef_db e)) as [RF _]. unfold db_view in V.
        assert (VV : view (clock 1%nat) (fst (flat_cmd (e_ho en) (clock 1%nat) c (match c with CWrite _ => snd (next_id (ef_db e (get_slot (ckey c)))) | CRead _ => ef_db e (get_slot (ckey c)) end))) (ckey c) = None).
        { rewrite <- V. unfold view. fold (db_contents (fst (db_cmd (e_ho en) (clock 1%nat) c (ef_db e))) (ckey c)). by rewrite RF. }
        rewrite RF. destruct c as [w|r]; cbn [flat_cmd ckey] in *.
        -- rewrite wapply_leaves by done.
           assert (C : forall k, contents (snd (next_id (ef_db e (get_slot k)))) k = m k) by (intros k; rewrite <- H; reflexivity).
           rewrite (leaves_puts _ _ _ (later (clock 1%nat) m)); [|unfold later, view; by rewrite C].
           destruct (puts_of w _) as [[k v]|] eqn:PO; [|apply C]. apply puts_of_key in PO as ->. by rewrite decide_True.
        -- destruct (rapply_same (e_ho en) (clock 1%nat) r (ef_db e (get_slot (rkey r)))) as [_ S]. rewrite S. apply H.
      * unfold db_contents, contents. pose proof (db_cmd_other (e_ho en) (clock 1%nat) c (ef_db e) j J) as O. unfold db_raw in O. rewrite O.
        fold (contents (ef_db e (get_slot j)) j). fold (db_contents (ef_db e) j). rewrite H.
        destruct c as [w|r]; [|done]. destruct (puts_of w _) as [[k v]|] eqn:PO; [|done]. apply puts_of_key in PO as ->. by rewrite decide_False.
  - rewrite plan_puts_none by (intros cs C; rewrite PL in C; done).
    assert (E : ef_db (fst (serve_request en clock alone q e)) = ef_db e).
    { destruct q; unfold serve_request; try (rewrite PL); try done. }
    rewrite E. apply H.
  - rewrite plan_puts_none by (intros cs C; rewrite PL in C; done).
    assert (E : ef_db (fst (serve_request en clock alone q e)) = ef_db e).
    { destruct q; unfold serve_request; try (rewrite PL); try done. }
    rewrite E. apply H.
Qed.
Lemma del_answer en clock q e m e' r : holds (ef_db e) m -> serve_request en clock alone q e = (e', r) -> del_counts q m r.
Proof.
  intros H E k ->. destruct (serve_any en clock alone (QDel [k]) e (CWrite (WDel k)) eq_refl) as [_ R]. rewrite E in R. cbn [snd] in R.
  destruct (db_cmd_refines_slot (e_ho en) (clock 1%nat) (CWrite (WDel k)) (ef_db e)) as [_ RF]. unfold alone in R. rewrite RF in R. clear RF E.
  cbn [flat_cmd ckey wkey wapply] in R. set (d := snd (next_id (ef_db e (get_slot k)))) in *.
  assert (C : contents d k = m k) by (rewrite <- H; reflexivity).
  destruct (del_apply k d) as [[d' o] u] eqn:E. destruct (del_spec _ _ _ _ _ E) as (_ & _ & RR). rewrite C in RR. cbn [fst snd] in R. rewrite R.
  destruct o as [v|]; cbn in RR; rewrite <- RR; reflexivity.
Qed.
Lemma fates_served_any en clock q e m m1 P : horder_ok (e_ho en) -> single q -> (forall sync, q <> QFlushall sync) -> holds (ef_db e) m ->
  fates en read_int (clock 0%nat) (clock 1%nat) q (later (clock 1%nat) m) m1 P ->
  exists e' r, serve_request en clock alone q e = (e', r) /\ P r /\ del_counts q m r /\ holds (ef_db e') (lasting (clock 0%nat) (clock 1%nat) q m m1).
Proof.
  intros HO SI NF H F.
  assert (S : shows 0 (ef_db e) m) by (intros t' k _; unfold db_view, view, later; fold (db_contents (ef_db e) k); by rewrite H).
  destruct (fates_served en clock q e 0 m m1 P HO S ltac:(lia) F) as (e' & r & E & R & S1). exists e', r. split; [done|]. split; [done|].
  split; [by eapply del_answer|].
  intros j. unfold lasting. rewrite <- (S1 (clock 1%nat) j) by lia.
  destruct (db_view (clock 1%nat) (ef_db e') j) as [v|] eqn:V.
  - unfold db_view, view in V. fold (db_contents (ef_db e') j) in V. destruct (db_contents (ef_db e') j) as [[x d]|]; [|done]. by destruct (decide _); inversion V.
  - pose proof (request_raw en clock q e m j SI NF H) as Q. rewrite E in Q. by apply Q.
Qed.
Lemma orderly_lasting t0 t1 q m m1 : orderly m -> orderly m1 -> orderly (lasting t0 t1 q m m1).
Proof.
  intros O O1 j x d. unfold lasting. destruct (later t1 m1 j) as [[x' d']|] eqn:L.
  - intros H. injection H as -> ->. by eapply (orderly_later t1 m1 O1).
  - destruct (puts t0 q (later t1 m)) as [[k v]|] eqn:P; [|apply O]. destruct (decide (j = k)) as [->|J]; [|apply O]. intros ->.
    pose proof (orderly_later t1 m O) as OL.
    destruct q; cbn [puts setex_asks expire_wants] in P; try discriminate P.
    all: repeat match goal with
      | H : (match ?x with [] => _ | _ :: _ => _ end) = Some _ |- _ => destruct x; try discriminate H
      | H : (match ?x with OOk _ => _ | OErr _ => _ | OPanic => _ end) = Some _ |- _ => destruct x eqn:?; try discriminate H
      | H : (match ?x with Some _ => _ | None => _ end) = Some _ |- _ => destruct x as [[? ?]|] eqn:?; try discriminate H
      | H : (if ?x then _ else _) = Some _ |- _ => destruct x; try discriminate H
      | H : Some _ = Some _ |- _ => injection H; clear H; intros; subst
      end; try done.
    all: try (by eapply OL).
    all: try (by eapply orderly_restored).
Qed.
Lemma holds_wiped b m s : holds b m -> holds (db_set s dict_empty b) (without_slot s m).
Proof.
  intros H k. unfold db_contents, db_set, without_slot. destruct (N.eqb_spec (get_slot k) s) as [E|E].
  - by rewrite decide_True.
  - rewrite decide_False by done. exact (H k).
Qed.
Lemma replaying en l : forall e m,
  horder_ok (e_ho en) -> holds (ef_db e) m -> orderly m -> Forall (fun s => brief (sv_req s) /\ fair (sv_req s)) (dids l) ->
  let '(e', rs) := deeds en l e in
  exists m', map fst rs = map sv_conn (dids l) /\ replay en read_int m l (map snd rs) m' /\ orderly m' /\ holds (ef_db e') m'.
Proof.
  induction l as [|[s|i s] l IH]; intros e m HO H OR FA.
  - cbn. exists m. split; [done|]. split; [constructor|done].
  - cbn [deeds dids] in *. inversion FA as [|? ? [FB FA1] FA2]; subst. cbn [map].
    assert (FL : (exists sync, sv_req s = QFlushall sync) \/ forall sync, sv_req s <> QFlushall sync) by (destruct (sv_req s); try (by right); left; eauto).
    destruct FL as [(sync & Q)|NF].
    + assert (E : serve_deed en s e = (e, inl frame_ok)) by (unfold serve_deed; by rewrite Q). rewrite E.
      specialize (IH e m HO H OR FA2). destruct (deeds en l e) as [e2 rs].
      destruct IH as (m' & I1 & I2 & I3 & I4). exists m'. cbn [map fst snd]. rewrite I1. split; [done|]. split; [by eapply replay_flushed|]. done.
    + rewrite serve_deed_request by done. pose proof (orderly_later (sv_clock s 1%nat) m OR) as OR1.
      assert (SI : single (sv_req s)) by (destruct FB as [FB|[sync FB]]; [done|by edestruct NF]).
      destruct (fair_explained en read_int (sv_clock s 0%nat) (sv_clock s 1%nat) (sv_req s) _ FA1 OR1) as (m1 & P & M).
      pose proof (orderly_fates _ _ _ _ _ _ _ _ OR1 M) as OR2.
      destruct (fates_served_any en (sv_clock s) (sv_req s) e m m1 P HO SI NF H M) as (e1 & r & E & R & DC & S1). rewrite E.
      specialize (IH e1 _ HO S1 (orderly_lasting _ _ _ _ _ OR OR2) FA2). destruct (deeds en l e1) as [e2 rs].
      destruct IH as (m' & I1 & I2 & I3 & I4). exists m'. cbn [map fst snd]. rewrite I1. split; [done|]. split; [by eapply replay_did|]. done.
  - cbn [deeds dids] in *.
    pose proof (IH (Effects (db_set s dict_empty (ef_db e)) (ef_exp e) (ef_fwd e)) (without_slot s m) HO (holds_wiped _ _ _ H) (orderly_wiped _ _ OR) FA) as G.
    destruct (deeds en l _) as [e' rs]. destruct G as (m' & I1 & I2 & I3 & I4). exists m'. split; [done|]. split; [by apply replay_wiped|]. done.
Qed.

(** ** Any number of clients, any requests, any readings of the clock *)
Theorem C117_clients : exists num, reads_counters num /\ forall en b m ins evs x,
  horder_ok (e_ho en) -> holds b m -> orderly m -> Forall (Forall separable) ins -> csteps en evs (cs_start b ins) = Some x ->
  exists l fs m', replay en num m l fs m' /\ orderly m' /\ holds (cs_db x) m' /\ Forall (fun d => doer d < length ins) l /\
    forall i k, cs_conns x !! i = Some k -> exists qs rest ps,
      nth i ins [] = qs ++ rest /\ merged qs ps (k_out k) /\ (exists last, fated i (dids l) fs = map inl ps ++ last) /\
      (exists more, flat_map script (flat_map parts (nth i ins [])) = acts i l ++ more) /\
      (k_pc k = KIdle -> rest = k_in k /\ fated i (dids l) fs = map inl ps /\ acts i l = flat_map script (flat_map parts qs)).
Proof.
  exists read_int. split; [apply read_int_counters|]. intros en b m ins0 evs0 x0 HO S OR A0 H0.
  destruct (C75_parts en b ins0 evs0 x0 A0 H0) as (evs & x & H & E1 & _ & _ & _ & AP).
  set (ins := map (flat_map parts) ins0) in *.
  assert (A : Forall (Forall (fun q => brief q /\ fair q)) ins).
  { apply List.Forall_map. eapply List.Forall_impl; [|exact A0]. intros qs Q. apply List.Forall_forall. intros p P. apply in_flat_map in P as (q & IN & P).
    rewrite List.Forall_forall in Q. pose proof (parts_brief q (Q q IN)) as D3. pose proof (fair_parts q) as D4. rewrite List.Forall_forall in D3, D4. split; [by apply D3|by apply D4]. }
  assert (SI : Forall (Forall brief) ins) by (eapply List.Forall_impl; [|exact A]; intros qs Q; eapply List.Forall_impl; [|exact Q]; by intros ? []).
  destruct (C111_one_at_a_time en b ins evs x SI H) as (L & L1 & _). destruct (L1 (length evs)) as (y & Y & EX & _ & _); [lia|].
  rewrite firstn_all in Y. rewrite H in Y. injection Y as <-. set (l := L (length evs)) in *. clearbody l. clear L L1.
  unfold accounts in EX. pose proof (replaying en l (Effects b [] []) m HO S OR) as C.
  destruct (deeds en l (Effects b [] [])) as [e rs]. destruct EX as (DB & CL & CO).
  destruct C as (m' & C1 & C2 & C3 & C4).
  { apply List.Forall_forall. intros s IN.
    assert (IN' : In (Did s) l).
    { clear -IN. induction l as [|[s'|i s'] l IH]; cbn [dids] in IN; [done| |right; by apply IH]. destruct IN as [->|IN]; [by left|right; by apply IH]. }
    rewrite List.Forall_forall in CL. pose proof (CL _ IN') as LT. cbn [doer] in LT. apply lookup_lt_is_Some in LT as [k K].
    destruct (CO _ _ K) as [(rest & R) _].
    assert (M : In (inl (sv_req s)) (flat_map script (nth (sv_conn s) ins []))).
    { rewrite R. apply in_or_app. left. unfold acts. apply in_flat_map. exists (Did s). split; [done|]. rewrite Nat.eqb_refl. by left. }
    apply in_script in M as M1.
    rewrite List.Forall_forall in A. destruct (nth_in_or_default (sv_conn s) ins []) as [I|I]; [|by rewrite I in M1].
    specialize (A _ I). rewrite List.Forall_forall in A. by apply A. }
  exists l, (map snd rs), m'. split; [done|]. split; [done|]. split; [by rewrite <- E1, <- DB|].
  split; [by rewrite (csteps_length en evs _ x H) in CL; unfold ins in CL; cbn [cs_start cs_conns] in CL; rewrite !map_length in CL|].
  intros i k K. destruct (AP i k K) as (k' & qs & rest & ps & K' & E & M & (la & LA) & I). destruct (CO i k' K') as ((more & M1) & (la2 & L2 & _) & I2).
  rewrite (fated_answered i (dids l) rs C1). unfold ins in M1, I2. rewrite nth_parts in M1, I2.
  exists qs, rest, ps. split; [done|]. split; [done|]. split; [rewrite L2, LA, map_app, <- app_assoc; by eexists|]. split; [by exists more|].
  intros KI. destruct (I KI) as (-> & PI & O & IN). destruct (I2 PI) as [O2 M2]. split; [done|]. split; [by rewrite O2, O|].
  rewrite E, !flat_map_app, IN in M2. by apply app_inv_tail in M2.
Qed.
Print Assumptions C117_clients.

(** ** A whole server *)
(** For every execution of a whole server, whatever its clock shows: the background tasks are one more client, which sends GETs and DELs
    of one key; the data are the same, and the other clients stand where they stand and have been given the same replies. *)
Theorem C117_one_more_client en b ins evs x : leader_steps en evs (leader_start b ins) = Some x ->
  exists asks evs' y, Forall asks_in_background asks /\ csteps en evs' (cs_start b (ins ++ [asks])) = Some y /\
    all_but (length ins) evs' = conn_turns evs /\ (forall k, db_raw (cs_db y) k = db_raw (cs_db (ld_cl x)) k) /\
    length (cs_conns (ld_cl x)) = length ins /\
    forall i k, cs_conns (ld_cl x) !! i = Some k -> exists k', cs_conns y !! i = Some k' /\
      k_in k' = k_in k /\ k_out k' = k_out k /\ (k_pc k = KIdle <-> k_pc k' = KIdle).
Proof.
  intros H. destruct (server_any en b ins evs x H) as (asks & evs' & y & V & Y & A & DB & ks & out & CO & F).
  exists asks, evs', y. split; [exact V|]. split; [done|]. split; [done|]. split; [intros k; symmetry; apply DB|].
  split.
  { pose proof (csteps_length en evs' _ y Y) as L. cbn [cs_start cs_conns] in L. rewrite CO, map_length, !app_length in L. cbn in L.
    rewrite (Forall2_length _ _ _ F). lia. }
  intros i k K. destruct (Forall2_lookup_l _ _ _ _ _ F K) as (k' & K' & E1 & E2 & E3). exists k'. rewrite CO, (lookup_app_l_Some _ _ _ _ K').
  split; [done|]. split; [done|]. split; [done|]. by destruct E3.
Qed.
Print Assumptions C117_one_more_client.
(** ... so it is a machine on a store of keys that keeps what has expired. *)
Theorem C117_server : exists num, reads_counters num /\ forall en b m ins evs x,
  horder_ok (e_ho en) -> holds b m -> orderly m -> Forall (Forall separable) ins -> leader_steps en evs (leader_start b ins) = Some x ->
  exists l fs m', replay en num m l fs m' /\ orderly m' /\ holds (cs_db (ld_cl x)) m' /\
    Forall (fun d => doer d < length ins \/ background_deed (length ins) d) l /\
    forall i k, cs_conns (ld_cl x) !! i = Some k -> exists qs rest ps,
      nth i ins [] = qs ++ rest /\ merged qs ps (k_out k) /\ (exists last, fated i (dids l) fs = map inl ps ++ last) /\
      (exists more, flat_map script (flat_map parts (nth i ins [])) = acts i l ++ more) /\
      (k_pc k = KIdle -> rest = k_in k /\ fated i (dids l) fs = map inl ps /\ acts i l = flat_map script (flat_map parts qs)).
Proof.
  destruct C117_clients as (num & RC & C). exists num. split; [done|]. intros en b m ins evs x HO S OR A H.
  destruct (C117_one_more_client en b ins evs x H) as (asks & evs' & y & V & H' & _ & DB & LC & CO).
  assert (PA : flat_map parts asks = asks /\ flat_map script asks = map inl asks).
  { clear -V. induction V as [|q asks Q _ [IH1 IH2]]; [done|]. cbn [flat_map map]. rewrite IH1, IH2. by destruct Q as [(k & ->)|(k & ->)]. }
  destruct PA as [PA1 PA2].
  destruct (C en b m (ins ++ [asks]) evs' y HO S OR) as (l & fs & m' & P & O & SH & DO & EX); [|done|].
  { apply List.Forall_app. split; [done|]. constructor; [|constructor]. eapply List.Forall_impl; [|exact V]. intros q [(k & ->)|(k & ->)]; by split. }
  assert (BL : length ins < length (cs_conns y)).
  { rewrite (csteps_length en evs' _ y H'). cbn [cs_start cs_conns]. rewrite map_length, app_length. cbn. lia. }
  apply lookup_lt_is_Some in BL as [kb KB].
  destruct (EX _ _ KB) as (_ & _ & _ & _ & _ & _ & (more & M) & _). rewrite app_nth2, Nat.sub_diag in M by lia. cbn [nth] in M. rewrite PA1, PA2 in M.
  exists l, fs, m'. split; [done|]. split; [done|]. split; [intros k; rewrite <- SH; unfold db_contents, contents; pose proof (DB k) as D; unfold db_raw in D; by rewrite D|].
  split.
  - apply List.Forall_forall. intros d D. rewrite List.Forall_forall in DO. pose proof (DO d D) as LT. rewrite app_length in LT. cbn in LT.
    destruct (decide (doer d < length ins)) as [L|L]; [by left|right]. assert (E : doer d = length ins) by lia.
    assert (IN : In (match d with Did s => inl (sv_req s) | Wiped _ s => inr s end) (map inl asks)).
    { rewrite M. apply in_or_app. left. unfold acts. apply in_flat_map. exists d. split; [done|]. destruct d as [s|i s]; cbn [doer] in E; rewrite E, Nat.eqb_refl; by left. }
    apply in_map_iff in IN as (q & Q & IN). destruct d as [s|i s]; [|done]. injection Q as ->. split; [done|]. rewrite List.Forall_forall in V. exact (V _ IN).
  - intros i k K. assert (LI : i < length ins) by (rewrite <- LC; by apply lookup_lt_Some in K). destruct (CO i k K) as (k' & K' & E1 & E2 & E3).
    destruct (EX i k' K') as (qs & rest & ps & X1 & X2 & X3 & X4 & X5). rewrite app_nth1 in X1, X4 by done.
    exists qs, rest, ps. rewrite <- E2. split; [done|]. split; [done|]. split; [done|]. split; [done|]. rewrite <- E1. intros KI. by apply X5, E3.
Qed.
Print Assumptions C117_server.

(** What expired comes back: a key untouched by a request keeps its value, and is visible whenever the clock is before its deadline. *)
Theorem C117_comes_back en clock q e k y : single q -> (forall sync, q <> QFlushall sync) ->
  db_contents (ef_db e) k = Some y -> ~ lives (clock 1%nat) (snd y) ->
  (forall m, match puts (clock 0%nat) q m with Some (j, _) => j <> k | None => True end) ->
  db_view (clock 1%nat) (ef_db (fst (serve_request en clock alone q e))) k = None ->
  forall t, lives t (snd y) -> db_view t (ef_db (fst (serve_request en clock alone q e))) k = Some y.
Proof.
  intros SI NF C D NP V t L. pose proof (request_raw en clock q e (db_contents (ef_db e)) k SI NF (fun _ => eq_refl) V) as R.
  specialize (NP (later (clock 1%nat) (db_contents (ef_db e)))).
  assert (E : db_contents (ef_db (fst (serve_request en clock alone q e))) k = Some y).
  { rewrite R. destruct (puts _ _ _) as [[j v]|]; [|done]. by rewrite decide_False. }
  unfold db_view, view. fold (db_contents (ef_db (fst (serve_request en clock alone q e))) k). rewrite E. destruct y as [x d]. by rewrite decide_True.
Qed.
Print Assumptions C117_comes_back.
(** SETEX at 1000 ms for ten seconds; at 20000 ms the key is not there, the clock steps back to 5000 ms, and it is there again; DEL at
    20000 ms, when GET would not find it, answers 1 (C14) and deletes it: it does not come back at 5000 ms. *)
Definition c117_ins : list (list request) := [[QSetex cl_a 10 (SBytes (bs "x")); QGet cl_a; QGet cl_a; QDel [cl_a]; QGet cl_a]].
Definition c117_evs : list (nat * N) := map (fun t => (0%nat, t)) (repeat 1000%N 7 ++ repeat 20000%N 5 ++ repeat 5000%N 5 ++ repeat 20000%N 7 ++ repeat 5000%N 5).
Example C117_clients_case : Forall (Forall separable) c117_ins /\ ~ StronglySorted N.le (map snd c117_evs) /\
  option_map (fun x => map (fun k => (k_in k, k_pc k, k_out k)) (cs_conns x)) (csteps ex_env c117_evs (cs_start db_empty c117_ins)) =
    Some [([], KIdle, [frame_ok; FNull; FBulk (bs "x"); FInteger 1; FNull])].
Proof.
  split; [by repeat constructor|]. split; [|vm_compute; reflexivity].
  intros S. do 7 apply StronglySorted_inv in S as [S _]. apply StronglySorted_inv in S as [_ S]. rewrite List.Forall_forall in S.
  assert (20000 <= 5000)%N; [|lia]. apply S. vm_compute. tauto.
Qed.
Example C117_store_case : holds db_empty (fun _ => None) /\ orderly (fun _ => None).
Proof. split; [done|]. intros k x d H. done. Qed.
(** A GET at 20000 ms of a key that expired at 11000 ms does not remove it. *)
Example C117_comes_back_case :
  let b := fst (db_cmd (e_ho ex_env) 1000 (CWrite (WSet cl_a (SBytes (bs "x")) (Specific 11000) NxXx_None)) db_empty) in
  single (QGet cl_a) /\ db_contents b cl_a = Some (DScalar (SBytes (bs "x")), 11000%N) /\ ~ lives 20000 11000 /\ lives 5000 11000 /\
  db_view 20000 (ef_db (fst (serve_request ex_env (fun _ => 20000%N) alone (QGet cl_a) (Effects b [] [])))) cl_a = None.
Proof.
  split; [intros t; cbn; lia|]. split; [vm_compute; reflexivity|]. split; [unfold lives; lia|]. split; [unfold lives; lia|]. vm_compute. reflexivity.
Qed.
(** The purge task reads the clock at 20000 ms and takes the entry of the key from its queue; the clock steps back to 5000 ms; the task removes
    the key, six seconds before its deadline. *)
Definition c117_server_ins : list (list request) := [[QSetex cl_a 10 (SBytes (bs "x")); QGet cl_a]].
Definition c117_turns : list (N * turn) :=
  repeat (1000%N, LConn 0) 7 ++ [(20000%N, LRecv); (20000%N, LPurge); (20000%N, LPurge); (5000%N, LPurge)] ++ repeat (5000%N, LConn 0) 5.
Example C117_server_case : Forall (Forall separable) c117_server_ins /\
  option_map (fun x => map (fun k => (k_in k, k_pc k, k_out k)) (cs_conns (ld_cl x))) (leader_steps ex_env c117_turns (leader_start db_empty c117_server_ins)) =
    Some [([], KIdle, [frame_ok; FNull])].
Proof. split; [by repeat constructor|]. vm_compute. reflexivity. Qed.
