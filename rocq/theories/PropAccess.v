(** C116: a write is an access. What OBJECT IDLETIME and OBJECT FREQ go by after any command, read or write. *)
From Verif Require Export SpecVisit.
From Verif Require Import VisitFacts CmdFacts SlotFacts SimpleFacts DbFacts.
Local Open Scope N_scope.

(** A command that counts as an access: every write but RESTORE, which brings its own statistics, and every read that is not silent. *)
Definition ordinary (c : cmd) : Prop := ~ silent c /\ forall r, c <> CWrite (WRestore r).
Definition is_set (c : cmd) : Prop := exists k x e n, c = CWrite (WSet k x e n).
(** The database after command [c] at instant [t], and after the history [h] that follows. *)
Definition after (ho : horder) (t : N) (c : cmd) (h : list (N * cmd)) (b : db) : db := fst (db_run ho h (fst (db_cmd ho t c b))).
(** What the key's statistics are: the instant of the last access in seconds, and the frequency. *)
Definition recorded (ho : horder) (t : N) (k : bytes) (b : db) : outcome resp := snd (db_read ho t (RLastVisit k) b).
Definition frequency (ho : horder) (t : N) (k : bytes) (b : db) : outcome resp := snd (db_read ho t (RVisitTimes k) b).

Lemma new_last now : get_last_visit_time (new_visit_log now) = (now / 10000) mod 4294967296.
Proof. apply create_log_last; [apply get_min_lt|done]. Qed.
Lemma new_times now : get_visit_times (new_visit_log now) = 5.
Proof. apply create_log_times; [apply get_min_lt|done]. Qed.
Lemma new_desc now : get_last_desc_time (new_visit_log now) = get_min now.
Proof. apply create_log_desc; [apply get_min_lt|done]. Qed.

Lemma alive_expired now v : (0 <? v_exp v) && (v_exp v <=? now) = negb (alive now v).
Proof.
  unfold alive. destruct (N.eqb_spec (v_exp v) 0), (N.ltb_spec 0 (v_exp v)), (N.ltb_spec now (v_exp v)), (N.leb_spec (v_exp v) now); cbn; try done; lia.
Qed.
(** The log of the key after a write: new, or updated once, or that of an expired value which has been left alone. *)
Lemma wapply_logged now w d v' : (forall r, w <> WRestore r) -> inner (fst (fst (wapply now w d))) !! wkey w = Some v' ->
  (v_log v' = new_visit_log now /\ ((forall v, inner d !! wkey w = Some v -> alive now v = false) \/ exists k x e n, w = WSet k x e n)) \/
  (exists v, inner d !! wkey w = Some v /\ alive now v = true /\ v_log v' = update_visit_log now (v_log v)) \/
  (inner d !! wkey w = Some v' /\ alive now v' = false).
Proof.
  intros NR. destruct w; cbn [wapply wkey]; cmd_unfold; try (by destruct (NR r)).
  all: unfold dict_remove, dict_get, get_or_insert_with, dict_insert, dict_put, fresh_value, with_data, touch in *.
  all: destruct (inner d !! k) as [v|] eqn:E; rewrite ?alive_expired; try (destruct (alive now v) eqn:AL).
  all: cbn.
  all: repeat case_match; subst; cbn.
  all: repeat match goal with H : (_, _) = (_, _) |- _ => injection H as ? ?; subst end; cbn.
  all: rewrite ?lookup_insert, ?lookup_delete, ?E.
  all: intros HV; try discriminate; try (injection HV as <-); cbn;
    first [by right; left; exists v|by right; right; split|left; (split; [done|]); first [right; by repeat eexists|left; intros ? [=]; by subst|by left]].
Qed.
Lemma rapply_dead ho now r d : (forall v, inner d !! rkey r = Some v -> alive now v = false) -> fst (rapply ho now r d) = d.
Proof.
  intros D.
  assert (G : forall k, k = rkey r -> dict_get now k d = (d, None)).
  { intros k ->. unfold dict_get. destruct (inner d !! rkey r) as [v|]; [|done]. by rewrite (D v). }
  destruct r; cbn [rkey] in *; unfold rapply, get_apply, exists_apply, dict_exists, dump_apply, kvp_get_apply, kvp_get_all_apply, kvp_exists_apply, deque_len_apply,
      deque_range_apply, set_exists_apply, set_get_all_apply, zrank_apply, zrange_rank_apply, zrange_score_apply, zrange_lex_apply;
    try rewrite (G k eq_refl); cbv iota beta; repeat case_match; subst; cbn [fst];
    repeat match goal with H : (_, _) = (_, _) |- _ => injection H as <- <- end; try done.
Qed.
Lemma cmd_logged ho now c b v' : ordinary c -> db_raw (fst (db_cmd ho now c b)) (ckey c) = Some v' ->
  (v_log v' = new_visit_log now /\ ((forall v, db_raw b (ckey c) = Some v -> alive now v = false) \/ is_set c)) \/
  (exists v, db_raw b (ckey c) = Some v /\ alive now v = true /\ v_log v' = update_visit_log now (v_log v)) \/
  (db_raw b (ckey c) = Some v' /\ alive now v' = false).
Proof.
  intros [S NR]. destruct c as [w|r]; cbn [db_cmd ckey].
  - intros H.
    assert (H' : inner (fst (fst (wapply now w (snd (next_id (b (get_slot (wkey w)))))))) !! wkey w = Some v').
    { destruct (db_write now w b) as [b' o] eqn:E. cbn [fst] in H. pose proof (proj1 (db_write_unfold now w b)) as U. rewrite E in U. cbn [fst] in U. subst b'.
      unfold db_raw in H. rewrite db_set_same in H. unfold slot_write in H. destruct (next_id _) as [i d1]. cbn [snd].
      destruct (wapply now w d1) as [[d2 r] e]. cbn [fst]. by destruct r. }
    apply wapply_logged in H'; [|intros r ->; by apply (NR r)]. 
    destruct H' as [[A [B|(k & x & e & n & ->)]]|[B|B]]; [left; split; [done|by left]|left; split; [done|right; by repeat eexists]|by right; left|by right; right].
  - intros H. destruct (db_raw b (rkey r)) as [v|] eqn:R.
    + destruct (alive now v) eqn:A.
      * rewrite (db_read_access ho now r b v) in H by done. injection H as <-. right. left. by exists v.
      * right. right. rewrite (proj1 (db_read_unfold _ _ _ _)) in H. unfold db_raw in H. rewrite db_set_same in H.
        rewrite rapply_dead in H; [unfold db_raw in R; split; congruence|]. intros v0 L. unfold db_raw in R. congruence.
    + rewrite (proj1 (db_read_unfold _ _ _ _)) in H. unfold db_raw in *. rewrite db_set_same in H.
      rewrite rapply_dead in H; [congruence|]. intros v0 L. congruence.
Qed.

(** The key is visible afterwards, so its log is new or has been updated. *)
Lemma visible_logged ho t c b k x e : ordinary c -> ckey c = k -> db_view t (fst (db_cmd ho t c b)) k = Some (x, e) ->
  exists v', db_raw (fst (db_cmd ho t c b)) k = Some v' /\ v_exp v' = e /\ ((v_log v' = new_visit_log t /\ ((forall v, db_raw b k = Some v -> alive t v = false) \/ is_set c)) \/
     (exists v, db_raw b k = Some v /\ alive t v = true /\ v_log v' = update_visit_log t (v_log v))).
Proof.
  intros O <- V. apply view_raw in V as (v' & R & AL & _ & X). exists v'. split; [done|]. split; [done|].
  destruct (cmd_logged ho t c b v' O R) as [A|[A|[_ A]]]; [by left|by right|congruence].
Qed.

(** ** The last access *)
(** Any access at [t0] that leaves the key visible: until the next access the recorded instant is [t0] to within ten seconds. *)
Theorem C116_last_access (ho : horder) (t0 t1 : N) (c : cmd) (b : db) (h : list (N * cmd)) (k : bytes) (x : data) (e : N) :
  ordinary c -> ckey c = k -> db_view t0 (after ho t0 c [] b) k = Some (x, e) -> quiet k h -> t0 / 10000 < 2 ^ 32 ->
  exists s, recorded ho t1 k (after ho t0 c h b) = OOk (POptN (Some s)) /\ s * 1000 <= t0 < (s + 10) * 1000.
Proof.
  intros O K V Q L. destruct (visible_logged ho t0 c b k x e O K V) as (v' & R & _ & G). exists (t0 / 10000 * 10). split.
  - unfold recorded, after. rewrite db_read_last, db_run_quiet, R by done. cbn [fmap option_fmap option_map].
    assert (E : get_last_visit_time (v_log v') = (t0 / 10000) mod 4294967296) by (destruct G as [[-> _]|(v & _ & _ & ->)]; [apply new_last|apply update_last]).
    rewrite E. change (2 ^ 32) with 4294967296 in L. rewrite (N.mod_small (t0 / 10000)) by done.
    unfold wrap_u64, two64. change (2 ^ 64) with 18446744073709551616. rewrite N.mod_small by lia. done.
  - pose proof (N.div_mod t0 10000). pose proof (N.mod_lt t0 10000). lia.
Qed.
Print Assumptions C116_last_access.

(** ** The frequency *)
(** A key that a command brings into being has frequency 5, and so has every key after an unconditional SET. *)
Theorem C116_created (ho : horder) (t0 t1 : N) (c : cmd) (b : db) (h : list (N * cmd)) (k : bytes) (x : data) (e : N) :
  ordinary c -> ckey c = k -> db_view t0 b k = None -> db_view t0 (after ho t0 c [] b) k = Some (x, e) -> quiet k h ->
  frequency ho t1 k (after ho t0 c h b) = OOk (POptN (Some 5)).
Proof.
  intros O K V0 V Q. destruct (visible_logged ho t0 c b k x e O K V) as (v' & R & _ & G).
  unfold frequency, after. rewrite db_read_times, db_run_quiet, R by done. cbn [fmap option_fmap option_map]. destruct G as [[-> _]|(v & B & A & _)]; [by rewrite new_times|].
  exfalso. unfold db_view, view, contents, db_raw in *. rewrite B in V0. cbn in V0. destruct (decide (lives t0 (v_exp v))) as [|N]; [done|].
  apply N. by apply alive_lives.
Qed.
Print Assumptions C116_created.
Theorem C116_set (ho : horder) (t0 t1 : N) (k : bytes) (x : scalar) (e : expires_at) (b : db) (h : list (N * cmd)) :
  quiet k h -> frequency ho t1 k (after ho t0 (CWrite (WSet k x e NxXx_None)) h b) = OOk (POptN (Some 5)).
Proof.
  intros Q. unfold frequency, after. rewrite db_read_times, db_run_quiet by done. cbn [db_cmd].
  destruct (db_write t0 _ b) as [b' o] eqn:E. pose proof (proj1 (db_write_unfold t0 (WSet k x e NxXx_None) b)) as U. rewrite E in U. cbn [fst] in *. subst b'.
  unfold db_raw. cbn [wkey]. rewrite db_set_same. unfold slot_write, next_id. cbn [wapply]. unfold set_apply, dict_insert.
  assert (P : forall d1 y ex, get_visit_times ∘ v_log <$> inner (Dict (write_id d1) (<[k := Value y ex (new_visit_log t0)]> (inner d1))) !! k = Some 5).
  { intros d1 y ex. cbn [inner]. rewrite lookup_insert. cbn [fmap option_fmap option_map compose v_log]. by rewrite new_times. }
  destruct e; [cbn [fst snd]; do 2 f_equal; apply P|]. destruct (dict_get _ _ _) as [d1 [old|]]; cbn [fst snd]; do 2 f_equal; apply P.
Qed.
Print Assumptions C116_set.
(** Between two accesses at any instants, reads or writes but SET: the frequency loses the minutes that have passed and gains one. Minutes
    are counted modulo 65536, and a count that seems to have gone back resets the frequency to 1. *)
Theorem C116_counts (ho : horder) (t0 t1 t : N) (c0 c1 : cmd) (b : db) (h h' : list (N * cmd)) (k : bytes) (x y : data) (e e' f : N) :
  ordinary c0 -> ckey c0 = k -> db_view t0 (after ho t0 c0 [] b) k = Some (x, e) -> quiet k h -> lives t1 e ->
  ordinary c1 -> ckey c1 = k -> ~ is_set c1 ->
  db_view t1 (after ho t1 c1 [] (after ho t0 c0 h b)) k = Some (y, e') -> quiet k h' ->
  let m0 := (t0 / 60000) mod 65536 in
  let m1 := (t1 / 60000) mod 65536 in
  frequency ho t k (after ho t0 c0 h b) = OOk (POptN (Some f)) ->
  frequency ho t k (after ho t1 c1 h' (after ho t0 c0 h b)) =
    OOk (POptN (Some (if m1 <? m0 then 1 else N.min 65535 ((f - (m1 - m0)) + 1)))).
Proof.
  intros O0 K0 V0 Q L O1 K1 NS V1 Q' m0 m1 F. destruct (visible_logged ho t0 c0 b k x e O0 K0 V0) as (v & R0 & X0 & G0).
  assert (RB : db_raw (after ho t0 c0 h b) k = Some v) by (unfold after; by rewrite db_run_quiet).
  destruct (visible_logged ho t1 c1 _ k y e' O1 K1 V1) as (v' & R1 & _ & G1).
  assert (AL : alive t1 v = true) by (apply alive_lives; by rewrite X0).
  destruct G1 as [[_ [A|A]]|(v0 & A & _ & U)]; [specialize (A v RB); congruence|done|]. rewrite RB in A. injection A as <-.
  unfold frequency in *. rewrite db_read_times, RB in F. cbn [fmap option_fmap option_map] in F. injection F as F.
  rewrite db_read_times. unfold after at 1. rewrite db_run_quiet, R1 by done. cbn [fmap option_fmap option_map]. rewrite U, update_times. unfold step_times.
  assert (D : get_last_desc_time (v_log v) = get_min t0) by (destruct G0 as [[-> _]|(v1 & _ & _ & ->)]; [apply new_desc|apply update_desc]).
  rewrite D, F, !get_min_mod. fold m0 m1.
  assert (B : m0 < 65536 /\ m1 < 65536) by (split; apply N.mod_lt; done).
  assert (Bf : f <= 65535) by (rewrite <- F; pose proof (times_le (v_log v)); lia).
  clearbody m0 m1. unfold max_visit_times. do 3 f_equal. destruct (N.ltb_spec m1 m0) as [C|C].
  - replace (f <? sub_u64 m1 m0) with true; [done|]. symmetry. apply N.ltb_lt.
    unfold sub_u64, two64. change (2 ^ 64) with 18446744073709551616. rewrite (N.mod_small m0) by lia.
    rewrite N.mod_small by lia. lia.
  - rewrite sub_u64_small by lia. destruct (f <? m1 - m0) eqn:E1; [cbn; lia|].
    destruct (f - (m1 - m0) <? 65535) eqn:E2; lia.
Qed.
Print Assumptions C116_counts.

(** RPUSH at 100 s creates a list; three minutes and a bit later INCR fails on it, which is an access too. *)
Definition c116_b : db := after horder_default 100000 (CWrite (WDequePush (bs "l") [SInteger 1] false NxXx_None)) [(100500, CRead (RTtl (bs "l")))] db_empty.
Definition c116_h : list (N * cmd) := [(300500, CRead (RVisitTimes (bs "l"))); (301000, CWrite (WDel (bs "m")))].
Example C116_case :
  db_view 100000 db_empty (bs "l") = None /\ db_view 100000 c116_b (bs "l") = Some (DDeque [SInteger 1], 0) /\
  frequency horder_default 200000 (bs "l") c116_b = OOk (POptN (Some 5)) /\
  snd (db_cmd horder_default 290000 (CWrite (WIncr (bs "l") 1)) c116_b) = OErr EWrongType /\
  frequency horder_default 400000 (bs "l") (after horder_default 290000 (CWrite (WIncr (bs "l") 1)) c116_h c116_b) = OOk (POptN (Some 3)) /\
  recorded horder_default 400000 (bs "l") (after horder_default 290000 (CWrite (WIncr (bs "l") 1)) c116_h c116_b) = OOk (POptN (Some 290)).
Proof. repeat split; apply (bool_decide_eq_true_1 _); vm_compute; reflexivity. Qed.
Example C116_case_quiet : quiet (bs "l") c116_h /\ ordinary (CWrite (WIncr (bs "l") 1)) /\ ~ is_set (CWrite (WIncr (bs "l") 1)).
Proof.
  split; [|split].
  - constructor; [by right|constructor; [by left|constructor]].
  - split; [by intros []|by intros r].
  - by intros (k & x & e & n & ?).
Qed.
