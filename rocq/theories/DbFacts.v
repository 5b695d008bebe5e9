(** Proofs about the database: sharding, framing, sequence numbers. *)
From Verif Require Export SpecDb SlotFacts TypeFacts.

Lemma db_set_same i d b : db_set i d b i = d.
Proof. unfold db_set. by rewrite N.eqb_refl. Qed.
Lemma db_set_other i j d b : j <> i -> db_set i d b j = b j.
Proof. unfold db_set. intros H. by destruct (N.eqb_spec j i). Qed.

(** ** One slot write *)
Lemma slot_write_fst slot now w d :
  fst (slot_write slot now w d) = fst (fst (wapply now w (snd (next_id d)))).
Proof. unfold slot_write. cbn. destruct (wapply _ _ _) as [[d2 r] e]. by destruct r. Qed.
Lemma slot_write_res slot now w d :
  wo_res (snd (slot_write slot now w d)) = snd (fst (wapply now w (snd (next_id d)))).
Proof. unfold slot_write. cbn. destruct (wapply _ _ _) as [[d2 r] e]. by destruct r. Qed.
Lemma next_id_inner d : inner (snd (next_id d)) = inner d.
Proof. done. Qed.

Lemma db_write_unfold now w b :
  fst (db_write now w b) = db_set (get_slot (wkey w)) (fst (slot_write (get_slot (wkey w)) now w (b (get_slot (wkey w))))) b
  /\ snd (db_write now w b) = snd (slot_write (get_slot (wkey w)) now w (b (get_slot (wkey w)))).
Proof. unfold db_write. by destruct (slot_write _ _ _ _). Qed.
Lemma db_read_unfold ho now r b :
  fst (db_read ho now r b) = db_set (get_slot (rkey r)) (fst (rapply ho now r (b (get_slot (rkey r))))) b
  /\ snd (db_read ho now r b) = snd (rapply ho now r (b (get_slot (rkey r)))).
Proof. unfold db_read, slot_read. by destruct (rapply _ _ _ _). Qed.

(** ** Framing *)
Lemma db_cmd_other ho now c b k : k <> ckey c -> db_raw (fst (db_cmd ho now c b)) k = db_raw b k.
Proof.
  intros Hk. unfold db_raw. destruct c as [w|r]; cbn [db_cmd ckey] in *.
  - destruct (db_write_unfold now w b) as [E _].
    destruct (db_write now w b) as [b' o]. cbn [fst] in *. subst b'.
    destruct (N.eq_dec (get_slot k) (get_slot (wkey w))) as [S|S].
    + rewrite S, db_set_same, slot_write_fst.
      destruct (wapply_only now w (snd (next_id (b (get_slot (wkey w)))))) as [_ O].
      rewrite O by done. by rewrite next_id_inner.
    + by rewrite db_set_other.
  - destruct (db_read_unfold ho now r b) as [E _]. rewrite E.
    destruct (N.eq_dec (get_slot k) (get_slot (rkey r))) as [S|S].
    + rewrite S, db_set_same.
      destruct (rapply_only ho now r (b (get_slot (rkey r)))) as [_ O]. by rewrite O.
    + by rewrite db_set_other.
Qed.

Lemma db_read_contents ho now r b k : db_contents (fst (db_read ho now r b)) k = db_contents b k.
Proof.
  unfold db_contents. destruct (db_read_unfold ho now r b) as [E _]. rewrite E.
  destruct (N.eq_dec (get_slot k) (get_slot (rkey r))) as [S|S].
  - rewrite S, db_set_same. destruct (rapply_same ho now r (b (get_slot (rkey r)))) as [_ O]. apply O.
  - by rewrite db_set_other.
Qed.

Lemma db_read_write_id ho now r b i : write_id (fst (db_read ho now r b) i) = write_id (b i).
Proof.
  destruct (db_read_unfold ho now r b) as [E _]. rewrite E.
  destruct (N.eq_dec i (get_slot (rkey r))) as [->|S].
  - rewrite db_set_same. by destruct (rapply_same ho now r (b (get_slot (rkey r)))) as [O _].
  - by rewrite db_set_other.
Qed.

Lemma db_raw_contents b k : db_contents b k = content <$> db_raw b k.
Proof. done. Qed.

Lemma db_run_no_write ho h b k :
  no_write_to k h -> db_contents (fst (db_run ho h b)) k = db_contents b k.
Proof.
  revert b; induction h as [|[now c] h IH]; intros b H; [done|].
  inversion H as [|? ? Hc Hh]; subst. cbn [db_run].
  destruct (db_cmd ho now c b) as [b1 r] eqn:E.
  specialize (IH b1 Hh). destruct (db_run ho h b1) as [b2 rs]. cbn [fst] in *. rewrite IH.
  replace b1 with (fst (db_cmd ho now c b)) by (by rewrite E).
  destruct c as [w|rr]; cbn [snd] in Hc.
  - rewrite !db_raw_contents. rewrite db_cmd_other; [done|]. cbn. congruence.
  - apply db_read_contents.
Qed.

Lemma db_run_no_cmd ho h b k : no_cmd_on k h -> db_raw (fst (db_run ho h b)) k = db_raw b k.
Proof.
  revert b; induction h as [|[now c] h IH]; intros b H; [done|].
  inversion H as [|? ? Hc Hh]; subst. cbn [db_run].
  destruct (db_cmd ho now c b) as [b1 r] eqn:E.
  specialize (IH b1 Hh). destruct (db_run ho h b1) as [b2 rs]. cbn [fst] in *. rewrite IH.
  replace b1 with (fst (db_cmd ho now c b)) by (by rewrite E).
  apply db_cmd_other. cbn in Hc. congruence.
Qed.

(** ** Sharding refines the flat store *)
Lemma db_cmd_refines ho now c b d :
  same_store b d ->
  snd (db_cmd ho now c b) = snd (flat_cmd ho now c d) /\
  same_store (fst (db_cmd ho now c b)) (fst (flat_cmd ho now c d)).
Proof.
  intros S.
  assert (O : forall k, k <> ckey c -> inner (fst (flat_cmd ho now c d)) !! k = inner d !! k).
  { intros k Hk. destruct c as [w|r]; cbn [flat_cmd ckey] in *.
    - by destruct (wapply_only now w d) as [_ O]; apply O.
    - by destruct (rapply_only ho now r d) as [_ O]; apply O. }
  assert (R : snd (db_cmd ho now c b) = snd (flat_cmd ho now c d) /\
              db_raw (fst (db_cmd ho now c b)) (ckey c) = inner (fst (flat_cmd ho now c d)) !! ckey c).
  { unfold db_raw. destruct c as [w|r]; cbn [db_cmd flat_cmd ckey].
    - destruct (db_write_unfold now w b) as [E1 E2].
      destruct (db_write now w b) as [b' o]. cbn [fst snd] in *. subst.
      rewrite db_set_same, slot_write_res, slot_write_fst.
      set (d1 := snd (next_id (b (get_slot (wkey w))))).
      assert (A : inner d1 !! wkey w = inner d !! wkey w) by (apply S).
      destruct (wapply_local now w d1 d A) as (A1 & _ & A2). done.
    - destruct (db_read_unfold ho now r b) as [E1 E2]. rewrite E1, E2, db_set_same.
      assert (A : inner (b (get_slot (rkey r))) !! rkey r = inner d !! rkey r) by (apply S).
      destruct (rapply_local ho now r _ d A) as (A1 & A2). done. }
  destruct R as [R1 R2]. split; [done|]. intros k.
  destruct (decide (k = ckey c)) as [->|N]; [done|].
  rewrite db_cmd_other by done. rewrite O by done. apply S.
Qed.

Lemma db_run_refines ho h b d :
  same_store b d ->
  snd (db_run ho h b) = snd (flat_run ho h d) /\ same_store (fst (db_run ho h b)) (fst (flat_run ho h d)).
Proof.
  revert b d; induction h as [|[now c] h IH]; intros b d S; [done|]. cbn [db_run flat_run].
  destruct (db_cmd_refines ho now c b d S) as [R1 R2].
  destruct (db_cmd ho now c b) as [b1 r1], (flat_cmd ho now c d) as [d1 r2]. cbn [fst snd] in *. subst.
  destruct (IH _ _ R2) as [I1 I2].
  destruct (db_run ho h b1) as [b2 rs1], (flat_run ho h d1) as [d2 rs2]. cbn [fst snd] in *. by subst.
Qed.

Lemma same_store_empty : same_store db_empty dict_empty.
Proof. done. Qed.

(** ** Reading the latest write *)
Lemma db_write_contents now w b :
  db_contents (fst (db_write now w b)) (wkey w) =
  contents (fst (fst (wapply now w (snd (next_id (b (get_slot (wkey w)))))))) (wkey w).
Proof.
  unfold db_contents. destruct (db_write_unfold now w b) as [E _].
  rewrite E, db_set_same, slot_write_fst. done.
Qed.

Lemma db_get_spec ho t k b :
  snd (db_read ho t (RGet k) b) = OOk (PData (seen_data (db_view t b k))).
Proof.
  destruct (db_read_unfold ho t (RGet k) b) as [_ E]. rewrite E. cbn [rkey rapply].
  pose proof (get_spec t k (b (get_slot k))) as G.
  destruct (get_apply t k (b (get_slot k))) as [d' x]. cbn [snd] in *. by rewrite G.
Qed.

Lemma db_view_contents t b b' k : db_contents b k = db_contents b' k -> db_view t b k = db_view t b' k.
Proof. intros H. unfold db_view, view. unfold db_contents in H. by rewrite H. Qed.

Lemma read_latest_write ho now k x e b h t :
  no_write_to k h ->
  let b1 := fst (db_write now (WSet k x (Specific e) NxXx_None) b) in
  let b2 := fst (db_run ho h b1) in
  snd (db_read ho t (RGet k) b2) = OOk (PData (if decide (lives t e) then DScalar x else DNull)) /\
  db_contents b2 k = Some (DScalar x, e) /\
  (forall k', k' <> k -> db_raw b1 k' = db_raw b k').
Proof.
  intros H b1 b2.
  assert (C : db_contents b2 k = Some (DScalar x, e)).
  { unfold b2. rewrite db_run_no_write by done. unfold b1.
    pose proof (db_write_contents now (WSet k x (Specific e) NxXx_None) b) as W. cbn [wkey] in W.
    rewrite W. cbn [wapply set_apply]. rewrite dict_insert_put. cbn [fst]. by rewrite contents_put. }
  split; [|split; [done|]].
  - rewrite db_get_spec. unfold db_view, view. unfold db_contents in C. rewrite C.
    by destruct (decide (lives t e)).
  - intros k' Hk. unfold b1. pose proof (db_cmd_other ho now (CWrite (WSet k x (Specific e) NxXx_None)) b k' Hk) as O.
    cbn [db_cmd] in O. by destruct (db_write now _ b).
Qed.

(** A command on the database is the same command on the dictionary of its slot. *)
Lemma db_cmd_refines_slot ho now c b :
  let d := match c with CWrite _ => snd (next_id (b (get_slot (ckey c)))) | CRead _ => b (get_slot (ckey c)) end in
  db_contents (fst (db_cmd ho now c b)) (ckey c) = contents (fst (flat_cmd ho now c d)) (ckey c) /\
  snd (db_cmd ho now c b) = snd (flat_cmd ho now c d).
Proof.
  unfold db_contents. destruct c as [w|r]; cbn [db_cmd flat_cmd ckey].
  - destruct (db_write_unfold now w b) as [E1 E2].
    destruct (db_write now w b) as [b' o]. cbn [fst snd] in *. subst.
    rewrite db_set_same, slot_write_res, slot_write_fst. done.
  - destruct (db_read_unfold ho now r b) as [E1 E2]. rewrite E1, E2, db_set_same. done.
Qed.

(** ** FLUSHALL *)
Lemma flushall_empty b k : db_raw (db_flushall b) k = None.
Proof.
  unfold db_raw, db_flushall. pose proof (get_slot_lt k) as H.
  replace (get_slot k <? slot_size)%N with true by lia. apply lookup_empty.
Qed.

(** ** Sequence numbers *)
Lemma wapply_write_id now w d : write_id (fst (fst (wapply now w d))) = write_id d.
Proof. by destruct (wapply_only now w d). Qed.

Lemma slot_write_seq slot now w d :
  let '(d', o) := slot_write slot now w d in
  write_id d' = wrap_u64 (write_id d + 1) /\
  wo_fwd o = match wo_res o with
             | OPanic => []
             | _ => [FwdMsg (wrap_u64 (write_id d + 1)) slot (to_write_cmd w)]
             end.
Proof.
  unfold slot_write. cbn [next_id].
  pose proof (wapply_write_id now w (Dict (wrap_u64 (write_id d + 1)) (inner d))) as W.
  destruct (wapply now w _) as [[d2 r] e]. cbn [fst] in W. by destruct r.
Qed.

Lemma forwarded_seq ho h b i :
  (write_id (b i) < two64)%N ->
  Forall (fun r => r <> OPanic) (snd (db_run ho h b)) ->
  List.filter (fun m => (fm_slot m =? i)%N) (db_forwarded ho h b) =
    zip_with (fun id w => FwdMsg id i (to_write_cmd w)) (ids_from (write_id (b i)) (length (writes_in i h))) (writes_in i h)
  /\ write_id (fst (db_run ho h b) i) = ((write_id (b i) + N.of_nat (length (writes_in i h))) mod 2 ^ 64)%N.
Proof.
  revert b; induction h as [|[now c] h IH]; intros b Hb P.
  - cbn. split; [done|]. unfold two64 in Hb. rewrite N.add_0_r, N.mod_small; done.
  - destruct c as [w|r]; cbn [db_forwarded writes_in db_run db_cmd] in *.
    + destruct (db_write now w b) as [b1 o] eqn:E.
      specialize (IH b1).
      destruct (db_run ho h b1) as [b2 rs] eqn:E2. cbn [snd fst] in *.
      inversion P as [|? ? Pr Prs]; subst.
      assert (B1 : b1 = fst (db_write now w b)) by (by rewrite E).
      assert (O : o = snd (db_write now w b)) by (by rewrite E).
      destruct (db_write_unfold now w b) as [U1 U2]. rewrite U1 in B1. rewrite U2 in O.
      pose proof (slot_write_seq (get_slot (wkey w)) now w (b (get_slot (wkey w)))) as Q.
      destruct (slot_write _ _ _ _) as [d' o']. cbn [fst snd] in *. subst o'.
      destruct Q as [Q1 Q2].
      rewrite filter_app.
      assert (F : wo_fwd o = [FwdMsg (wrap_u64 (write_id (b (get_slot (wkey w))) + 1)) (get_slot (wkey w)) (to_write_cmd w)]).
      { rewrite Q2. destruct (wo_res o); done. }
      rewrite F. cbn [List.filter fm_slot].
      destruct (N.eqb_spec (get_slot (wkey w)) i) as [Ei|Ei].
      * subst i. assert (W : write_id (b1 (get_slot (wkey w))) = wrap_u64 (write_id (b (get_slot (wkey w))) + 1)).
        { rewrite B1, db_set_same. done. }
        rewrite W in IH. destruct IH as [IH1 IH2]; [unfold wrap_u64, two64; lia|done|].
        rewrite IH1, IH2. cbn [length ids_from zip_with]. unfold wrap_u64, two64.
        split; [done|]. unfold two64 in Hb.
        rewrite N.add_mod_idemp_l by lia. f_equal. lia.
      * assert (W : b1 i = b i). { rewrite B1. by rewrite db_set_other by congruence. }
        rewrite W in IH. destruct IH as [IH1 IH2]; [done|done|]. by rewrite IH1.
    + destruct (db_read ho now r b) as [b1 o] eqn:E. cbn [fst].
      assert (W : write_id (b1 i) = write_id (b i)).
      { replace b1 with (fst (db_read ho now r b)) by (by rewrite E). apply db_read_write_id. }
      specialize (IH b1). rewrite W in IH.
      destruct (db_run ho h b1) as [b2 rs] eqn:E2. cbn [snd fst] in *.
      inversion P as [|? ? Pr Prs]; subst. by apply IH.
Qed.

(** ** Counters *)
Lemma counter_run ho h b k z :
  only_increments k h ->
  db_contents b k = Some (DInteger (as_i64 z), 0%N) ->
  db_contents (fst (db_run ho h b)) k = Some (DInteger (as_i64 (z + sumZ (increments k h))), 0%N) /\
  increment_replies k h (snd (db_run ho h b)) = map (fun t => OOk (PInt t)) (totals z (increments k h)).
Proof.
  revert b z; induction h as [|[now c] h IH]; intros b z H C.
  - cbn. rewrite Z.add_0_r. done.
  - inversion H as [|? ? Hc Hh]; subst. cbn [snd] in Hc. cbn [db_run].
    destruct (db_cmd ho now c b) as [b1 r] eqn:E.
    assert (B1 : b1 = fst (db_cmd ho now c b)) by (by rewrite E).
    assert (R1 : r = snd (db_cmd ho now c b)) by (by rewrite E).
    destruct c as [w|rr]; cbn [increments increment_replies].
    + destruct (decide (wkey w = k)) as [K|K].
      * destruct (Hc K) as [n ->]. cbn [wkey] in K.
        destruct (decide (k = k)) as [_|]; [|done].
        assert (C1 : db_contents b1 k = Some (DInteger (as_i64 (z + n)), 0%N) /\ r = OOk (PInt (as_i64 (z + n)))).
        { subst b1 r. cbn [db_cmd]. destruct (db_write now (WIncr k n) b) as [b1 o] eqn:E1. cbn [fst snd].
          replace b1 with (fst (db_write now (WIncr k n) b)) by (by rewrite E1).
          replace o with (snd (db_write now (WIncr k n) b)) by (by rewrite E1).
          pose proof (db_write_contents now (WIncr k n) b) as W. cbn [wkey] in W. rewrite W.
          destruct (db_write_unfold now (WIncr k n) b) as [_ U]. rewrite U, slot_write_res. cbn [wkey wapply].
          set (d := snd (next_id (b (get_slot k)))).
          destruct (incr_apply now k n d) as [d' res] eqn:I.
          destruct (incr_spec _ _ _ _ _ _ I) as [_ S].
          assert (V : view now d k = Some (DInteger (as_i64 z), 0%N)).
          { unfold view. unfold d. unfold contents. rewrite next_id_inner.
            unfold db_contents, contents in C. rewrite C. by destruct (decide (lives now 0)) as [|F]; [|destruct F; left]. }
          rewrite V in S. cbn in S. destruct S as [-> S]. cbn. rewrite S.
          change as_i64 with wrap_i64. rewrite wrap_i64_add. done. }
        destruct C1 as [C1 ->].
        specialize (IH b1 (z + n)%Z Hh C1). destruct (db_run ho h b1) as [b2 rs]. cbn [fst snd] in *.
        destruct IH as [I1 I2]. rewrite I1, I2. cbn [sumZ fold_right map totals]. split; [|done].
        by rewrite Z.add_assoc.
      * assert (C1 : db_contents b1 k = Some (DInteger (as_i64 z), 0%N)).
        { subst b1. rewrite db_raw_contents, db_cmd_other; [done|]. cbn. congruence. }
        specialize (IH b1 z Hh C1). destruct (db_run ho h b1) as [b2 rs]. cbn [fst snd] in *.
        destruct w; try exact IH. cbn [wkey] in K. destruct (decide (k0 = k)); [done|]. exact IH.
    + assert (C1 : db_contents b1 k = Some (DInteger (as_i64 z), 0%N)).
      { subst b1. cbn [db_cmd]. by rewrite db_read_contents. }
      specialize (IH b1 z Hh C1). destruct (db_run ho h b1) as [b2 rs]. cbn [fst snd] in *. exact IH.
Qed.

Lemma interleaves_sum ls m : interleaves ls m -> sumZ m = sumZ (map sumZ ls).
Proof.
  induction 1 as [ls H|ls1 x l ls2 m _ IH].
  - induction H as [|l ls -> _ IH]; [done|]. exact IH.
  - change (sumZ (x :: m)) with (x + sumZ m)%Z. rewrite IH, !map_app. cbn [map].
    assert (A : forall a b : list Z, sumZ (a ++ b) = (sumZ a + sumZ b)%Z).
    { intros a b. unfold sumZ. induction a as [|y a IHa]; [done|].
      cbn [app fold_right]. rewrite IHa. ring. }
    rewrite !A. unfold sumZ. cbn [fold_right]. ring.
Qed.

(** ** Invariants of single keys over histories *)
Lemma db_run_keeps (P : wreq -> Prop) (Q : data -> Prop) ho h b :
  (forall now w d, P w -> (forall x e, contents d (wkey w) = Some (x, e) -> Q x) ->
     forall x e, contents (fst (fst (wapply now w d))) (wkey w) = Some (x, e) -> Q x) ->
  Forall (fun p => match snd p with CWrite w => P w | CRead _ => True end) h ->
  (forall k x e, db_contents b k = Some (x, e) -> Q x) ->
  forall k x e, db_contents (fst (db_run ho h b)) k = Some (x, e) -> Q x.
Proof.
  intros W. revert b; induction h as [|[now c] h IH]; intros b H B; [done|].
  pose proof (Forall_inv H) as Hc. pose proof (Forall_inv_tail H) as Hh. cbn [snd] in Hc. cbn [db_run].
  destruct (db_cmd ho now c b) as [b1 r] eqn:E.
  assert (B1 : forall k x e, db_contents b1 k = Some (x, e) -> Q x).
  { replace b1 with (fst (db_cmd ho now c b)) by (by rewrite E). clear E b1 r. intros k x e.
    destruct (decide (k = ckey c)) as [->|K].
    - destruct c as [w|rd]; cbn [ckey].
      + replace (fst (db_cmd ho now (CWrite w) b)) with (fst (db_write now w b)) by (cbn; by destruct (db_write now w b)).
        rewrite db_write_contents. apply W; [done|]. intros x' e'. exact (B (wkey w) x' e').
      + change (db_cmd ho now (CRead rd) b) with (db_read ho now rd b). rewrite db_read_contents. apply B.
    - rewrite db_raw_contents, db_cmd_other by done. rewrite <- db_raw_contents. apply B. }
  specialize (IH b1 Hh B1). by destruct (db_run ho h b1) as [b2 rs].
Qed.
