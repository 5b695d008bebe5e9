(** C11-C19 (dictionary level), C21, C22: string and key commands. *)
From Verif Require Import TypeFacts Db.

(** A small dictionary used in the examples: at instant 1000 the counter "n" lives until 5000, the list
    "l" has no deadline, "old" expired at 900. *)
Definition ex_d : dict :=
  Dict 7 (<[bs "n" := Value (DBytes (bs "41")) 5000 5]>
         (<[bs "l" := Value (DDeque [SBytes (bs "a")]) 0 5]>
         (<[bs "old" := Value (DBytes (bs "secret")) 900 5]> ∅))).

(** ** C11: expiry is a sharp deadline *)

(** Before the deadline every read that does not report deadlines answers as if there were none. *)
Theorem C11_read_before_deadline (ho : horder) (now : N) (r : rreq) (d : dict) (x : data) (e : N) :
  contents d (rkey r) = Some (x, e) -> (now < e)%N -> tells_deadline r = false ->
  snd (rapply ho now r d) = snd (rapply ho now r (undying (rkey r) d)).
Proof.
  intros C L T. apply (rapply_before_deadline ho now r d x e T). unfold view. rewrite C.
  destruct (decide (lives now e)) as [|F]; [done|]. destruct F. by right.
Qed.
Print Assumptions C11_read_before_deadline.

(** From the deadline on every read other than OBJECT FREQ / IDLETIME answers as if the key did not
    exist.  Missing for the full statement: the two OBJECT reads, see the refutation below. *)
Theorem C11_read_after_deadline_partial (ho : horder) (now : N) (r : rreq) (d : dict) (x : data) (e : N) :
  contents d (rkey r) = Some (x, e) -> (0 < e <= now)%N -> rpeeks r = false ->
  snd (rapply ho now r d) = snd (rapply ho now r (without (rkey r) d)).
Proof.
  intros C L T. apply rapply_expired; [done|]. unfold view. rewrite C.
  destruct (decide (lives now e)) as [F|]; [|done]. destruct F; lia.
Qed.
Print Assumptions C11_read_after_deadline_partial.

(** A write that finds an expired key answers, notifies and leaves behind exactly what it would on a
    dictionary that never had the key (SET without NX/XX and DEL: see C12, C14). *)
Theorem C11_write_after_deadline (now : N) (w : wreq) (d : dict) (x : data) (e : N) :
  contents d (wkey w) = Some (x, e) -> (0 < e <= now)%N -> peeks w = false ->
  let '(d1, r1, u1) := wapply now w d in
  let '(d2, r2, u2) := wapply now w (without (wkey w) d) in
  r1 = r2 /\ u1 = u2 /\ forall t, (now <= t)%N -> view t d1 (wkey w) = view t d2 (wkey w).
Proof.
  intros C L T. assert (V : view now d (wkey w) = None).
  { unfold view. rewrite C. destruct (decide (lives now e)) as [F|]; [|done]. destruct F; lia. }
  pose proof (wapply_expired now w d T V) as W. unfold wres_like in W.
  destruct (wapply now w d) as [[d1 r1] u1], (wapply now w (without (wkey w) d)) as [[d2 r2] u2]. exact W.
Qed.
Print Assumptions C11_write_after_deadline.
Example C11_case :
  contents ex_d (bs "old") = Some (DBytes (bs "secret"), 900%N) /\
  snd (rapply horder_default 899 (RGet (bs "old")) ex_d) = OOk (PData (DBytes (bs "secret"))) /\
  snd (rapply horder_default 900 (RGet (bs "old")) ex_d) = OOk (PData DNull) /\
  snd (fst (wapply 900 (WIncr (bs "old") 3) ex_d)) = OOk (PInt 3).
Proof. vm_compute. auto. Qed.

Theorem C11_object_sees_expired_refuted :
  exists d k x e now, contents d k = Some (x, e) /\ (0 < e <= now)%N /\
    snd (rapply horder_default now (RVisitTimes k) d) <> snd (rapply horder_default now (RVisitTimes k) (without k d)).
Proof.
  exists ex_d, (bs "old"), (DBytes (bs "secret")), 900%N, 1000%N.
  split; [by vm_compute|]. split; [lia|]. vm_compute. discriminate.
Qed.
Print Assumptions C11_object_sees_expired_refuted.

(** ** C12: SET options.  [set_stores] and [set_deadline] are the Redis tables (SpecSimple.v). *)
Theorem C12_set_options (now : N) (k : bytes) (x : scalar) (ea : expires_at) (nx : nx_xx) (d : dict) :
  let '(d', r, u) := wapply now (WSet k x ea nx) d in
  only_key k d d' /\
  (exists reply, r = OOk (PData reply) /\ (nx <> NxXx_None \/ ea = Last -> reply = seen_data (view now d k))) /\
  contents d' k = (if set_stores nx (view now d k)
                   then Some (DScalar x, set_deadline ea (view now d k))
                   else contents d k).
Proof.
  cbn [wapply]. destruct (set_apply now k x ea nx d) as [[d' o] u] eqn:E.
  destruct (set_spec _ _ _ _ _ _ _ _ _ E) as (H1 & H2 & H3).
  split; [done|]. split; [by exists o|]. by destruct (set_stores nx (view now d k)).
Qed.
Print Assumptions C12_set_options.
Example C12_case :
  contents (fst (fst (wapply 1000 (WSet (bs "n") (SBytes (bs "9")) Last NxXx_Xx) ex_d))) (bs "n") = Some (DBytes (bs "9"), 5000%N) /\
  contents (fst (fst (wapply 1000 (WSet (bs "old") (SBytes (bs "9")) Last NxXx_Nx) ex_d))) (bs "old") = Some (DBytes (bs "9"), 0%N) /\
  contents (fst (fst (wapply 1000 (WSet (bs "n") (SBytes (bs "9")) (Specific 0) NxXx_Nx) ex_d))) (bs "n") = Some (DBytes (bs "41"), 5000%N) /\
  contents (fst (fst (wapply 1000 (WSet (bs "n") (SBytes (bs "9")) (Specific 0) NxXx_None) ex_d))) (bs "n") = Some (DBytes (bs "9"), 0%N).
Proof. vm_compute. auto. Qed.

(** ** C14: expired data is never revealed.  True of every write other than DEL and plain SET, and of every
    read other than OBJECT. *)
Theorem C14_expired_not_revealed_partial (ho : horder) (now : N) (c : cmd) (d : dict) :
  view now d (ckey c) = None ->
  (match c with CWrite w => peeks w = false | CRead r => rpeeks r = false end) ->
  (match c with
   | CWrite w => snd (fst (wapply now w d)) = snd (fst (wapply now w (without (wkey w) d)))
   | CRead r => snd (rapply ho now r d) = snd (rapply ho now r (without (rkey r) d))
   end).
Proof.
  intros V P. destruct c as [w|r].
  - exact (proj1 (wapply_expired now w d P V)).
  - exact (rapply_expired ho now r d P V).
Qed.
Print Assumptions C14_expired_not_revealed_partial.
Example C14_case : view 1000 ex_d (bs "old") = None /\ inner ex_d !! bs "old" <> None.
Proof. split; vm_compute; done. Qed.

(** SET ... GET without NX/XX/KEEPTTL hands out the expired value, DEL counts the expired key. *)
Theorem C14_set_get_refuted :
  exists d k now x, view now d k = None /\
    snd (fst (wapply now (WSet k x (Specific 0) NxXx_None) d)) <>
    snd (fst (wapply now (WSet k x (Specific 0) NxXx_None) (without k d))).
Proof. exists ex_d, (bs "old"), 1000%N, SNull. split; [by vm_compute|]. vm_compute. discriminate. Qed.
Print Assumptions C14_set_get_refuted.
Theorem C14_del_refuted :
  exists d k now, view now d k = None /\
    snd (fst (wapply now (WDel k) d)) <> snd (fst (wapply now (WDel k) (without k d))).
Proof. exists ex_d, (bs "old"), 1000%N. split; [by vm_compute|]. vm_compute. discriminate. Qed.
Print Assumptions C14_del_refuted.

(** ** C15: EXPIRE options.  [expire_allowed] is the Redis table.  Missing: NX together with GT or LT, which
    Redis rejects and the code answers with 0, and XX LT on a key without deadline. *)
Theorem C15_expire_options_partial (now : N) (k : bytes) (new : N) (nx : nx_xx) (gl : gt_lt) (d : dict) :
  let '(d', r, u) := wapply now (WExpire k new nx gl) d in
  only_key k d d' /\
  match view now d k with
  | None => r = OOk (PBool false) /\ contents d' k = contents d k
  | Some (x, e) =>
      (nx = NxXx_Nx -> gl = GtLt_None) -> (nx = NxXx_Xx -> gl = GtLt_Lt -> e <> 0%N) ->
      r = OOk (PBool (expire_allowed nx gl (forever_or e) new)) /\
      contents d' k = (if expire_allowed nx gl (forever_or e) new then Some (x, new) else contents d k)
  end.
Proof.
  cbn [wapply]. destruct (expire_apply now k new nx gl d) as [[d' b] u] eqn:E.
  destruct (expire_spec _ _ _ _ _ _ _ _ _ E) as (H1 & H2). split; [done|].
  destruct (view now d k) as [[x e]|]; [|by destruct H2 as [-> ->]].
  destruct H2 as [-> ->]. intros N1 N2.
  assert (T : expire_update nx gl e new = expire_allowed nx gl (forever_or e) new); [|by rewrite T].
  pose proof (expire_table nx gl e new) as T. destruct nx, gl; try exact T; auto.
  all: by discriminate (N1 eq_refl).
Qed.
Print Assumptions C15_expire_options_partial.
Example C15_case :
  view 1000 ex_d (bs "n") = Some (DBytes (bs "41"), 5000%N) /\
  snd (fst (wapply 1000 (WExpire (bs "n") 6000 NxXx_None GtLt_Lt) ex_d)) = OOk (PBool false) /\
  snd (fst (wapply 1000 (WExpire (bs "n") 6000 NxXx_Xx GtLt_Gt) ex_d)) = OOk (PBool true).
Proof. vm_compute. auto. Qed.

Theorem C15_xx_lt_refuted :
  exists d k now new x, view now d k = Some (x, 0%N) /\
    expire_allowed NxXx_Xx GtLt_Lt (forever_or 0) new = false /\
    contents (fst (fst (wapply now (WExpire k new NxXx_Xx GtLt_Lt) d))) k = Some (x, new) /\ new <> 0%N.
Proof. exists ex_d, (bs "l"), 1000%N, 2000%N, (DDeque [SBytes (bs "a")]). vm_compute. done. Qed.
Print Assumptions C15_xx_lt_refuted.

(** ** C16: after an accepted EXPIRE with deadline [new] <> 0 the key is visible exactly before [new]
    (not at all if [new] is not in the future).  Missing: [new] = 0. *)
Theorem C16_deadline_is_effective_partial (now : N) (k : bytes) (new : N) (nx : nx_xx) (gl : gt_lt) (d : dict) :
  let '(d', r, u) := wapply now (WExpire k new nx gl) d in
  r = OOk (PBool true) -> new <> 0%N ->
  exists x e, view now d k = Some (x, e) /\
    forall t, view t d' k = (if (t <? new)%N then Some (x, new) else None).
Proof.
  cbn [wapply]. destruct (expire_apply now k new nx gl d) as [[d' b] u] eqn:E.
  destruct (expire_spec _ _ _ _ _ _ _ _ _ E) as (_ & H2).
  intros Hr Hn. injection Hr as ->.
  destruct (view now d k) as [[x e]|]; [|by destruct H2].
  destruct H2 as [_ H2]. exists x, e. split; [done|]. intros t. unfold view. rewrite H2.
  destruct (decide (lives t new)) as [F|F]; unfold lives in F.
  - replace (t <? new)%N with true by lia. done.
  - replace (t <? new)%N with false by lia. done.
Qed.
Print Assumptions C16_deadline_is_effective_partial.
Example C16_case :
  snd (fst (wapply 1000 (WExpire (bs "n") 400 NxXx_None GtLt_None) ex_d)) = OOk (PBool true) /\
  view 1000 (fst (fst (wapply 1000 (WExpire (bs "n") 400 NxXx_None GtLt_None) ex_d))) (bs "n") = None.
Proof. vm_compute. auto. Qed.

(** The deadline 0 lies in the past, yet the key lives on forever. *)
Theorem C16_deadline_zero_refuted :
  exists d k now, snd (fst (wapply now (WExpire k 0 NxXx_None GtLt_None) d)) = OOk (PBool true) /\
    forall t, view t (fst (fst (wapply now (WExpire k 0 NxXx_None GtLt_None) d))) k <> None.
Proof.
  exists ex_d, (bs "n"), 1000%N. split; [by vm_compute|]. intros t. unfold view.
  replace (contents _ _) with (Some (DBytes (bs "41"), 0%N)) by (by vm_compute).
  destruct (decide (lives t 0)) as [F|F]; [done|]. destruct F. by left.
Qed.
Print Assumptions C16_deadline_zero_refuted.

(** ** C17: PTTL agrees with EXISTS and is exact. *)
Theorem C17_ttl_agrees_with_visibility (ho : horder) (now : N) (k : bytes) (d : dict) :
  let ttl := snd (rapply ho now (RTtl k) d) in
  let ex := snd (rapply ho now (RExists k) d) in
  (ttl = OOk (PTtl TtlNotExist) <-> ex = OOk (PBool false)) /\
  (ttl = OOk (PTtl TtlNone) -> ex = OOk (PBool true) /\ forall t, view t d k = view now d k) /\
  (forall ms, ttl = OOk (PTtl (Ttl ms)) ->
     ex = OOk (PBool true) /\ (0 < ms)%N /\
     forall t, view t d k <> None <-> (t < now + ms)%N).
Proof.
  cbn [rapply snd]. rewrite ttl_spec.
  pose proof (exists_spec now k d) as E. destruct (exists_apply now k d) as [d' b]. cbn [snd] in *. subst b.
  unfold view. destruct (contents d k) as [[x e]|]; [|done].
  destruct (decide (lives now e)) as [L|L]; [|done].
  destruct (N.eqb_spec e 0) as [->|Ne].
  - split; [done|]. split; [|done]. intros _. split; [done|]. intros t.
    destruct (decide (lives t 0)) as [|F]; [done|]. destruct F. by left.
  - split; [done|]. split; [done|]. intros ms H. injection H as <-.
    unfold lives in L. split; [done|]. split; [lia|]. intros t.
    destruct (decide (lives t e)) as [F|F]; unfold lives in F; (split; [|]); intros; try lia; done.
Qed.
Print Assumptions C17_ttl_agrees_with_visibility.
Example C17_case :
  snd (rapply horder_default 1000 (RTtl (bs "n")) ex_d) = OOk (PTtl (Ttl 4000)) /\
  snd (rapply horder_default 1000 (RTtl (bs "l")) ex_d) = OOk (PTtl TtlNone) /\
  snd (rapply horder_default 1000 (RTtl (bs "old")) ex_d) = OOk (PTtl TtlNotExist).
Proof. vm_compute. auto. Qed.

(** ** C18: INCR arithmetic.  Missing: on 64-bit overflow the code wraps instead of failing. *)
Theorem C18_incr_partial (now : N) (k : bytes) (n : Z) (d : dict) :
  let '(d', r, u) := wapply now (WIncr k n) d in
  only_key k d d' /\
  match view now d k with
  | None => r = OOk (PInt n) /\ contents d' k = Some (DInteger n, 0%N)
  | Some (x, e) =>
      (forall z, stands_for x z -> (- 2 ^ 63 <= z + n < 2 ^ 63)%Z ->
         r = OOk (PInt (z + n)) /\ contents d' k = Some (DInteger (z + n), e)) /\
      (kind_of x <> KString \/ (exists t, no_number_prefix t /\ (x = DBytes t \/ x = DString t)) ->
         (exists er, r = OErr er) /\ contents d' k = contents d k)
  end.
Proof.
  cbn [wapply no_exp]. unfold no_exp. destruct (incr_apply now k n d) as [d' r] eqn:E. cbn [fst snd].
  destruct (incr_spec _ _ _ _ _ _ E) as (H1 & H2). split; [done|].
  destruct (view now d k) as [[x e]|]; [|by destruct H2 as [-> ->]]. split.
  - intros z Hz R. rewrite (stands_for_i64 _ _ Hz) in H2. destruct H2 as [-> ->].
    rewrite wrap_i64_id; [done|]. unfold is_i64, i64_min, i64_max, z_two63. lia.
  - intros H.
    assert (exists er, data_as_i64 x = OErr er) as [er Her].
    { destruct H as [H|(t & T & [-> | ->])].
      - destruct x; cbn in *; eauto. done.
      - cbn. rewrite (atoi_none_prefix t T). eauto.
      - cbn. rewrite (atoi_none_prefix t T). eauto. }
    rewrite Her in H2. destruct H2 as [-> ->]. split; [by exists er|done].
Qed.
Print Assumptions C18_incr_partial.
Example C18_case :
  stands_for (DBytes (bs "41")) 41 /\ view 1000 ex_d (bs "n") = Some (DBytes (bs "41"), 5000%N) /\
  contents (fst (fst (wapply 1000 (WIncr (bs "n") (-1)) ex_d))) (bs "n") = Some (DInteger 40, 5000%N) /\
  no_number_prefix (bs "secret") /\
  snd (fst (wapply 800 (WIncr (bs "old") 1) ex_d)) = OErr ENotInt.
Proof.
  split; [split; [unfold i64_min, i64_max, z_two63; lia|by right; left]|].
  split; [by vm_compute|]. split; [by vm_compute|]. split; [|by vm_compute].
  cbn. repeat split; try done. lia.
Qed.

Theorem C18_incr_overflow_refuted :
  exists d k n z, contents d k = Some (DInteger z, 0%N) /\ (2 ^ 63 <= z + n)%Z /\
    exists d' u, wapply 0 (WIncr k n) d = (d', OOk (PInt (- 2 ^ 63)), u) /\
      contents d' k = Some (DInteger (- 2 ^ 63), 0%N).
Proof.
  exists (Dict 0 {[ bs "k" := Value (DInteger (2 ^ 63 - 1)) 0 0 ]}), (bs "k"), 1%Z, (2 ^ 63 - 1)%Z.
  split; [by vm_compute|]. split; [lia|].
  match goal with |- exists _ _, ?w = _ /\ _ =>
    assert (A : snd (fst w) = OOk (PInt (- 2 ^ 63)) /\ contents (fst (fst w)) (bs "k") = Some (DInteger (- 2 ^ 63), 0%N))
      by (by vm_compute);
    revert A; generalize w
  end.
  intros [[d o] u]. cbn [fst snd]. intros [-> A]. by exists d, u.
Qed.
Print Assumptions C18_incr_overflow_refuted.

(** ** C19: only integers can be incremented: text that does not begin like a number is refused; text with
    a numeric prefix is wrongly accepted. *)
Theorem C19_incr_refuses_text_partial (now : N) (k t : bytes) (n : Z) (e : N) (d : dict) :
  view now d k = Some (DBytes t, e) -> no_number_prefix t ->
  exists d' u, wapply now (WIncr k n) d = (d', OErr ENotInt, u) /\ same_contents d d'.
Proof.
  intros V T. destruct (wapply now (WIncr k n) d) as [[d' r] u] eqn:E.
  assert (r = OErr ENotInt) as ->.
  { cbn [wapply] in E. unfold no_exp in E. destruct (incr_apply now k n d) as [d1 r1] eqn:I. injection E as <- <- <-.
    destruct (incr_spec _ _ _ _ _ _ I) as (_ & H2). rewrite V in H2. cbn in H2.
    rewrite (atoi_none_prefix t T) in H2. by destruct H2 as [-> _]. }
  exists d', u. split; [done|]. exact (wapply_error_same _ _ _ _ _ _ E).
Qed.
Print Assumptions C19_incr_refuses_text_partial.
Example C19_case : no_number_prefix (bs "secret") /\ view 800 ex_d (bs "old") = Some (DBytes (bs "secret"), 900%N).
Proof. split; [|by vm_compute]. cbn. repeat split; try done. lia. Qed.

Theorem C19_only_integers_refuted :
  exists d k t n r, contents d k = Some (DBytes t, 0%N) /\ (forall z, t <> show_Z z) /\
    snd (fst (wapply 0 (WIncr k n) d)) = OOk (PInt r).
Proof.
  exists (Dict 0 {[ bs "k" := Value (DBytes (bs "12abc")) 0 0 ]}), (bs "k"), (bs "12abc"), 1%Z, 13%Z.
  split; [by vm_compute|]. split; [|by vm_compute].
  intros z H.
  assert (D : forall b, b ∈ show_Z z -> b = x2d \/ is_digit b = true).
  { intros b. unfold show_Z. destruct (z <? 0)%Z; intros Hb.
    - apply elem_of_cons in Hb as [->|Hb]; [by left|]. right. exact (proj1 (Forall_forall _ _) (show_digits_all _ _) b (proj1 (elem_of_list_In _ _) Hb)).
    - right. exact (proj1 (Forall_forall _ _) (show_digits_all _ _) b (proj1 (elem_of_list_In _ _) Hb)). }
  rewrite <- H in D. destruct (D x61) as [F|F]; [|done|done]. vm_compute. set_solver.
Qed.
Print Assumptions C19_only_integers_refuted.

(** ** C21: a command on a key of another type answers WRONGTYPE and changes nothing (no data, no deadline, no
    notification), and no failing command changes anything. *)
Theorem C21_wrong_type_no_effect (now : N) (w : wreq) (d : dict) (x : data) (e : N) (kd : kind) :
  view now d (wkey w) = Some (x, e) -> wkind w = Some kd -> kind_of x <> kd ->
  exists d', wapply now w d = (d', OErr EWrongType, None) /\ same_contents d d'.
Proof. exact (wapply_wrong_type now w d x e kd). Qed.
Print Assumptions C21_wrong_type_no_effect.
Theorem C21_wrong_type_read (ho : horder) (now : N) (r : rreq) (d : dict) (x : data) (e : N) (kd : kind) :
  view now d (rkey r) = Some (x, e) -> rkind r = Some kd -> kind_of x <> kd ->
  snd (rapply ho now r d) = OErr EWrongType.
Proof. exact (rapply_wrong_type ho now r d x e kd). Qed.
Print Assumptions C21_wrong_type_read.
Theorem C21_errors_no_effect (now : N) (w : wreq) (d d' : dict) (er : err) (u : exp_status) :
  wapply now w d = (d', OErr er, u) -> same_contents d d'.
Proof. exact (wapply_error_same now w d d' er u). Qed.
Print Assumptions C21_errors_no_effect.
(** WRONGTYPE is never raised without reason: not on an absent or expired key. *)
Theorem C21_no_spurious_type_error (ho : horder) (now : N) (d : dict) (k : bytes) :
  view now d k = None ->
  (forall w, wkey w = k -> snd (fst (wapply now w d)) <> OErr EWrongType) /\
  (forall r, rkey r = k -> snd (rapply ho now r d) <> OErr EWrongType).
Proof.
  intros V. split; [intros w <-|intros r <-].
  - by apply wapply_absent_no_type_error.
  - by apply rapply_absent_no_type_error.
Qed.
Print Assumptions C21_no_spurious_type_error.
Example C21_case :
  view 1000 ex_d (bs "l") = Some (DDeque [SBytes (bs "a")], 0%N) /\
  wkind (WZAdd (bs "l") [] NxXx_None GtLt_None false) = Some KZset /\ kind_of (DDeque [SBytes (bs "a")]) <> KZset.
Proof. vm_compute. done. Qed.

(** ** C22: reads change no value, no deadline and no sequence number. *)
Theorem C22_reads_change_nothing (ho : horder) (now : N) (r : rreq) (d : dict) :
  same_contents d (fst (rapply ho now r d)).
Proof. exact (rapply_same ho now r d). Qed.
Print Assumptions C22_reads_change_nothing.
Example C22_case : inner (fst (rapply horder_default 70000 (RGet (bs "l")) ex_d)) !! bs "l" <> inner ex_d !! bs "l".
Proof. vm_compute. discriminate. Qed.
