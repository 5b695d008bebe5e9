(** C91 and C35 with the root of emptied trees. *)
From Verif Require Import ZsetInv PropZset PropScore PropExact PropPanic DbFacts.
From Verif Require Export Btree.

Local Arguments dict_put : simpl never.
Local Arguments touch : simpl never.

(** ** Specification *)

(** The command put a new tree under the key: ZADD when nothing is visible there, or a RESTORE that was accepted. *)
Definition replaces_tree (t : N) (c : cmd) (o : outcome resp) (b : db) (k : bytes) : Prop :=
  match c with
  | CWrite (WZAdd k' _ _ _ _) => k' = k /\ db_view t b k = None
  | CWrite (WRestore r) => r_key r = k /\ exists x, o = OOk x
  | _ => False
  end.
(** The set had members at some moment and has been the same set since. *)
Inductive once_filled (ho : horder) (k : bytes) : list (N * cmd) -> Prop :=
  | filled_now h x l e : db_contents (fst (db_run ho h db_empty)) k = Some (DZSet x l, e) -> l <> [] -> once_filled ho k h
  | filled_since h t c x l e : once_filled ho k h ->
      ~ replaces_tree t c (snd (db_cmd ho t c (fst (db_run ho h db_empty)))) (fst (db_run ho h db_empty)) k ->
      db_contents (fst (db_run ho (h ++ [(t, c)]) db_empty)) k = Some (DZSet x l, e) -> once_filled ho k (h ++ [(t, c)]).

(** ** Lemmas *)
Lemma stored_tree_contents b k l : stored_tree b k = Some l <-> exists x e, db_contents b k = Some (DZSet x l, e).
Proof.
  unfold stored_tree, db_contents, contents. destruct (inner (b (get_slot k)) !! k) as [v|]; cbn;
    [|split; [discriminate|intros (x & e & H); discriminate H]].
  unfold content. split.
  - intros H. destruct (v_data v) eqn:D; try done. injection H as ->. by eexists _, _.
  - intros (x & e & [= D _]). by rewrite D.
Qed.
Lemma stored_tree_same b b' k : db_contents b k = db_contents b' k -> stored_tree b k = stored_tree b' k.
Proof.
  intros E. destruct (stored_tree b k) as [l|] eqn:S.
  - apply stored_tree_contents in S as (x & e & S). symmetry. apply stored_tree_contents. exists x, e. by rewrite <- E.
  - destruct (stored_tree b' k) as [l|] eqn:S'; [|done]. apply stored_tree_contents in S' as (x & e & S').
    rewrite <- E in S'. assert (stored_tree b k = Some l) by (apply stored_tree_contents; by exists x, e). congruence.
Qed.
Lemma key_alive_view now b k : key_alive now b k = true <-> db_view now b k <> None.
Proof.
  unfold key_alive, db_view, view, contents. destruct (inner (b (get_slot k)) !! k) as [v|] eqn:E; cbn; [|done].
  rewrite alive_lives. by destruct (decide (lives now (v_exp v))).
Qed.
Lemma db_run_snoc ho h t c b : fst (db_run ho (h ++ [(t, c)]) b) = fst (db_cmd ho t c (fst (db_run ho h b))).
Proof.
  revert b; induction h as [|[t' c'] h IH]; intros b; cbn [db_run app].
  - cbn [fst]. by destruct (db_cmd ho t c b).
  - destruct (db_cmd ho t' c' b) as [b1 r]. specialize (IH b1). destruct (db_run ho (h ++ [(t, c)]) b1), (db_run ho h b1). done.
Qed.
Lemma rdb_run_snoc ho h t c f : fst (rdb_run ho (h ++ [(t, c)]) f) = fst (rdb_cmd ho t c (fst (rdb_run ho h f))).
Proof.
  revert f; induction h as [|[t' c'] h IH]; intros f; cbn [rdb_run app].
  - cbn [fst]. by destruct (rdb_cmd ho t c f).
  - destruct (rdb_cmd ho t' c' f) as [f1 r]. specialize (IH f1). destruct (rdb_run ho (h ++ [(t, c)]) f1), (rdb_run ho h f1). done.
Qed.
Lemma rdb_cmd_db ho t c f : fst (fst (rdb_cmd ho t c f)) = fst (db_cmd ho t c (fst f)).
Proof. unfold rdb_cmd. destruct (db_cmd ho t c (fst f)). by destruct c. Qed.
Lemma rdb_run_db ho h f : fst (fst (rdb_run ho h f)) = fst (db_run ho h (fst f)).
Proof.
  revert f; induction h as [|[t c] h IH]; intros f; [done|]. cbn [rdb_run db_run].
  pose proof (rdb_cmd_db ho t c f) as E. destruct (rdb_cmd ho t c f) as [f1 r], (db_cmd ho t c (fst f)) as [b1 r']. cbn [fst] in E.
  specialize (IH f1). rewrite E in IH. by destruct (rdb_run ho h f1), (db_run ho h b1).
Qed.

(** The reply of a score range over an empty set. *)
Lemma empty_range ho now k rg lim rv b : key_alive now b k = true -> stored_tree b k = Some [] ->
  snd (db_cmd ho now (CRead (RZRangeScore k rg lim rv)) b) = OOk (PNodes []).
Proof.
  intros A T. cbn [db_cmd]. destruct (db_read_unfold ho now (RZRangeScore k rg lim rv) b) as [_ ->].
  cbn [rkey rapply]. unfold stored_tree, key_alive in *. cmd_unfold. unfold dict_get.
  destruct (inner (b (get_slot k)) !! k) as [v|]; [|done]. rewrite A. change (v_data (touch now v)) with (v_data v).
  destruct (v_data v) as [| | | |h l]; try done. injection T as ->.
  destruct (bigger_range rg) as [lo hi], (shape_limit lim _) as [o n]. cbn [bt_range].
  replace (if rv then rev [] else []) with ([] : list node) by (by destruct rv). cbn [List.filter].
  done.
Qed.

Lemma new_tree_replaces t w b ho : new_tree t w (snd (db_cmd ho t (CWrite w) b)) b = true <->
  replaces_tree t (CWrite w) (snd (db_cmd ho t (CWrite w) b)) b (wkey w).
Proof.
  destruct w; cbn [new_tree replaces_tree wkey]; try done.
  - rewrite negb_true_iff. pose proof (key_alive_view t b k) as H. destruct (key_alive t b k); split; try done.
    + intros [_ E]. by destruct (proj1 H eq_refl).
    + intros _. split; [done|]. destruct (db_view t b k); [|done]. assert (false = true) by (by apply H). done.
  - generalize (snd (db_cmd ho t (CWrite (WRestore r)) b)). intros o. destruct o; split; try done; try (by intros (_ & ? & [=])).
    intros _. split; [done|]. by eexists.
Qed.
Lemma has_root_stored f k : has_root f k = true -> exists l, stored_tree (fst f) k = Some l.
Proof. unfold has_root. destruct (stored_tree (fst f) k); [by eexists|done]. Qed.
Lemma has_root_same f f' k : stored_tree (fst f') k = stored_tree (fst f) k -> (k ∈ snd f' <-> k ∈ snd f) -> has_root f' k = has_root f k.
Proof. intros E H. unfold has_root. rewrite E. destruct (stored_tree (fst f) k) as [[|]|]; try done. by apply bool_decide_ext. Qed.
Lemma has_root_step ho t c f k : let f' := fst (rdb_cmd ho t c f) in
  has_root f' k = true <->
  exists l, stored_tree (fst f') k = Some l /\
    (l <> [] \/ (has_root f k = true /\ ~ replaces_tree t c (snd (db_cmd ho t c (fst f))) (fst f) k)).
Proof.
  intros f'.
  assert (Keep : stored_tree (fst f') k = stored_tree (fst f) k -> (k ∈ snd f' <-> k ∈ snd f) ->
    ~ replaces_tree t c (snd (db_cmd ho t c (fst f))) (fst f) k ->
    has_root f' k = true <-> exists l, stored_tree (fst f') k = Some l /\
      (l <> [] \/ (has_root f k = true /\ ~ replaces_tree t c (snd (db_cmd ho t c (fst f))) (fst f) k))).
  { intros E H R. rewrite (has_root_same f f' k E H). split.
    - intros Hr. destruct (has_root_stored f k Hr) as [l Hl]. exists l. rewrite E. split; [done|]. right. done.
    - intros (l & Hl & [N|[Hr _]]); [|done]. rewrite E in Hl. unfold has_root. rewrite Hl. by destruct l. }
  pose proof (rdb_cmd_db ho t c f) as D. fold f' in D.
  destruct c as [w|r].
  - destruct (decide (k = wkey w)) as [->|Hk].
    + clear Keep. assert (S2 : snd f' = rooted_after t w (snd (db_cmd ho t (CWrite w) (fst f))) f (fst f')).
      { subst f'. unfold rdb_cmd. by destruct (db_cmd ho t (CWrite w) (fst f)). }
      pose proof (new_tree_replaces t w (fst f) ho) as NR. unfold has_root at 1. rewrite S2. unfold rooted_after.
      destruct (stored_tree (fst f') (wkey w)) as [[|n l]|].
      * rewrite bool_decide_eq_true. destruct (new_tree t w _ (fst f)).
        { cbn [negb andb]. split; [set_solver|]. intros (l & [= <-] & [[]|[_ N]]); [done|]. by destruct N; apply NR. }
        cbn [negb andb]. destruct (has_root f (wkey w)).
        { split; [|set_solver]. intros _. exists []. split; [done|]. right. split; [done|]. intros N. by apply NR in N. }
        split; [set_solver|]. by intros (l & [= <-] & [[]|[[=] _]]).
      * split; [|done]. intros _. exists (n :: l). split; [done|]. by left.
      * split; [done|]. by intros (l & [=] & _).
    + apply Keep.
      * rewrite D. apply stored_tree_same. rewrite !db_raw_contents. by rewrite db_cmd_other.
      * subst f'. unfold rdb_cmd. destruct (db_cmd ho t (CWrite w) (fst f)) as [b' o]. cbn [fst snd]. unfold rooted_after.
        repeat case_match; set_solver.
      * destruct w; cbn [replaces_tree wkey] in *; try (by intros []); intros [E _]; congruence.
  - apply Keep.
    + rewrite D. apply stored_tree_same. cbn [db_cmd]. apply db_read_contents.
    + subst f'. unfold rdb_cmd. by destruct (db_cmd ho t (CRead r) (fst f)).
    + by intros [].
Qed.

(** ** The ghost set is what the specification says *)
Lemma filled_iff ho h k : has_root (fst (rdb_run ho h rdb_empty)) k = true <-> once_filled ho k h.
Proof.
  induction h as [|[t c] h IH] using rev_ind.
  - split; [done|]. intros H. inversion H as [? x l e C|? ? ? ? ? ? ? ? ? X]; [done|]. by destruct h.
  - rewrite rdb_run_snoc, has_root_step. rewrite rdb_cmd_db, rdb_run_db. change (fst rdb_empty) with db_empty.
    rewrite <- db_run_snoc. split.
    + intros (l & S & O). apply stored_tree_contents in S as (x & e & C). destruct O as [N|[R N]].
      * by eapply filled_now.
      * eapply filled_since; [by apply IH|done|done].
    + intros H. inversion H as [? x l e C N|h' t' c' x l e F R C E].
      * subst. exists l. split; [apply stored_tree_contents; by exists x, e|by left].
      * apply app_inj_tail in E as [-> [= -> ->]]. exists l. split; [apply stored_tree_contents; by exists x, e|].
        right. split; [by apply IH|done].
Qed.

Lemma invalid_too_far r : bt_range_invalid (fst (bigger_range r)) (snd (bigger_range r)) = too_far r.
Proof.
  destruct r as [a b]. cbn [bigger_range fst snd]. unfold bt_range_invalid, too_far. destruct a as [|a|a], b as [|b|b]; try done;
    cbn; unfold node_cmp, f64_lt, f64_le; cbn [n_score n_key]; rewrite !f64_cmp_key;
    destruct (fkey a) as [x|], (fkey (f64_add b f64_tenth)) as [y|]; try done; cbn;
    destruct (lex3 x y) eqn:E.
  all: try (apply lex3_eq in E as ->; rewrite (proj2 (lex3_eq y y) eq_refl); done).
  all: try (rewrite (proj2 (lex3_gt y x) E); done).
  all: try (rewrite (proj1 (lex3_gt x y) E); done).
Qed.

(** ** C91: the other files leave out exactly this *)
(** Executed with the roots, every history leaves the same database, and every reply is the same except that a score
    range over an empty set, answered with nothing there, panics here. *)
Theorem C91_root_refines_partial (ho : horder) (h : list (N * cmd)) (f : rdb) :
  fst (fst (rdb_run ho h f)) = fst (db_run ho h (fst f)) /\
  Forall2 (fun o o' => o' = o \/ (o = OOk (PNodes []) /\ o' = OPanic)) (snd (db_run ho h (fst f))) (snd (rdb_run ho h f)).
Proof.
  split; [apply rdb_run_db|]. revert f. induction h as [|[t c] h IH]; intros f; [constructor|]. cbn [rdb_run db_run].
  pose proof (rdb_cmd_db ho t c f) as E.
  assert (R : snd (rdb_cmd ho t c f) = snd (db_cmd ho t c (fst f)) \/
    (snd (db_cmd ho t c (fst f)) = OOk (PNodes []) /\ snd (rdb_cmd ho t c f) = OPanic)).
  { unfold rdb_cmd. destruct c as [w|r]; [left; by destruct (db_cmd ho t (CWrite w) (fst f))|].
    destruct (empty_search_panics t r f) eqn:P; [|left; by destruct (db_cmd ho t (CRead r) (fst f))].
    right. split; [|by destruct (db_cmd ho t (CRead r) (fst f))].
    unfold empty_search_panics in P. destruct r; try done. apply andb_true_iff in P as [P Q]. apply andb_true_iff in P as [A _].
    destruct (stored_tree (fst f) k) as [[|]|] eqn:S; try done. by apply empty_range. }
  destruct (rdb_cmd ho t c f) as [f1 r'], (db_cmd ho t c (fst f)) as [b1 r]. cbn [fst snd] in *. specialize (IH f1). rewrite E in IH.
  destruct (rdb_run ho h f1) as [f2 rs'], (db_run ho h b1) as [b2 rs]. cbn [snd] in *. by constructor.
Qed.
Print Assumptions C91_root_refines_partial.

(** When exactly: the set is visible and has no members, it once had some, and the interval is reversed by more than the
    0.1 that the code adds to its end. *)
Theorem C91_exactly_when (ho : horder) (h : list (N * cmd)) (now : N) (c : cmd) :
  let f := fst (rdb_run ho h rdb_empty) in let b := fst (db_run ho h db_empty) in
  snd (rdb_cmd ho now c f) = OPanic <->
  snd (db_cmd ho now c b) = OPanic \/
  (exists k r lim rv x e, c = CRead (RZRangeScore k r lim rv) /\ db_view now b k = Some (DZSet x [], e) /\
     once_filled ho k h /\ too_far r = true).
Proof.
  intros f b. assert (F : fst f = b) by apply (rdb_run_db ho h rdb_empty).
  unfold rdb_cmd. rewrite F. destruct c as [w|r].
  - destruct (db_cmd ho now (CWrite w) b) as [b' o]. cbn [snd]. split; [by left|]. intros [H|(? & ? & ? & ? & ? & ? & [=] & _)]; done.
  - destruct (db_cmd ho now (CRead r) b) as [b' o] eqn:E. cbn [snd].
    assert (P : empty_search_panics now r f = true <-> exists k rg lim rv x e, CRead r = CRead (RZRangeScore k rg lim rv) /\
      db_view now b k = Some (DZSet x [], e) /\ once_filled ho k h /\ too_far rg = true).
    { unfold empty_search_panics. rewrite F. split.
      - destruct r; try done. intros H. apply andb_true_iff in H as [H Q]. apply andb_true_iff in H as [A R].
        apply filled_iff in R. destruct (stored_tree b k) as [[|]|] eqn:S; try done. rewrite invalid_too_far in Q.
        apply stored_tree_contents in S as (x & e & C). apply key_alive_view in A.
        exists k, r, lim, rv, x, e. split; [done|]. split; [|done]. unfold db_view, view in *. unfold db_contents in C.
        rewrite C in *. by destruct (decide (lives now e)).
      - intros (k & rg & lim & rv & x & e & [= ->] & V & O & T). rewrite invalid_too_far, T.
        assert (A : key_alive now b k = true) by (apply key_alive_view; by rewrite V).
        assert (S : stored_tree b k = Some []).
        { apply stored_tree_contents. exists x, e. unfold db_view, view in V. unfold db_contents.
          destruct (contents _ k) as [[y e']|]; [|done]. by destruct (decide (lives now e')). }
        rewrite A, S. apply filled_iff in O. fold f in O. by rewrite O. }
    destruct (empty_search_panics now r f).
    + split; [|done]. intros _. right. by apply P.
    + split; [by left|]. intros [H|H]; [done|]. apply P in H. done.
Qed.
Print Assumptions C91_exactly_when.

(** C35 with the roots: all commands that panic after a history without ZADD INCR, NaN scores and RESTORE. *)
Theorem C35_exactly_with_root (ho : horder) (h : list (N * cmd)) (now : N) (c : cmd) :
  Forall (fun p => match snd p with CWrite w => gentle w | CRead _ => True end) h -> covered c ->
  let b := fst (db_run ho h db_empty) in
  snd (rdb_cmd ho now c (fst (rdb_run ho h rdb_empty))) = OPanic <->
  panics c (db_view now b (ckey c)) \/
  (exists k r lim rv x e, c = CRead (RZRangeScore k r lim rv) /\ db_view now b k = Some (DZSet x [], e) /\
     once_filled ho k h /\ too_far r = true).
Proof. intros H Co b. rewrite (C91_exactly_when ho h now c). by rewrite (C35_exactly_when ho h now c H Co). Qed.
Print Assumptions C35_exactly_with_root.

(** The history of the claim: what a database answers is not determined by what it stores. Two databases with the same
    contents under every key; one panics. *)
Definition emptied : list (N * cmd) :=
  [(1%N, CWrite (WZAdd (bs "z") [Node (f64_of_Z 1) (bs "a")] NxXx_None GtLt_None false)); (2%N, CWrite (WZRemove (bs "z") [bs "a"]))].
Definition never_filled : list (N * cmd) :=
  [(1%N, CWrite (WZAdd (bs "z") [Node (f64_of_Z 1) (bs "a")] NxXx_Xx GtLt_None false)); (2%N, CWrite (WZRemove (bs "z") [bs "a"]))].
Definition reversed_range : cmd := CRead (RZRangeScore (bs "z") (Included (f64_of_Z 5), Included (f64_of_Z 1)) None false).
Theorem C91_same_data_other_answer_refuted :
  let f := fst (rdb_run horder_default emptied rdb_empty) in let g := fst (rdb_run horder_default never_filled rdb_empty) in
  (forall k, db_contents (fst f) k = db_contents (fst g) k) /\
  db_view 3 (fst f) (bs "z") = Some (DZSet ∅ [], 0%N) /\
  snd (rdb_cmd horder_default 3 reversed_range f) = OPanic /\
  snd (rdb_cmd horder_default 3 reversed_range g) = OOk (PNodes []).
Proof.
  cbn zeta. rewrite !rdb_run_db. split.
  - intros k. change (fst rdb_empty) with db_empty. destruct (decide (k = bs "z")) as [->|K].
    + apply (bool_decide_eq_true_1 _). vm_compute. reflexivity.
    + rewrite !db_raw_contents. rewrite !db_run_no_cmd; [done|..].
      all: unfold no_cmd_on, emptied, never_filled; repeat apply List.Forall_cons; [..|apply List.Forall_nil]; intros X; apply K; symmetry; exact X.
  - split; [|split]; apply (bool_decide_eq_true_1 _); vm_compute; reflexivity.
Qed.
Print Assumptions C91_same_data_other_answer_refuted.
(** The two histories meet the hypotheses of the theorems above, and differ in [once_filled]. *)
Example C91_case :
  once_filled horder_default (bs "z") emptied /\ ~ once_filled horder_default (bs "z") never_filled /\
  Forall (fun p => match snd p with CWrite w => gentle w | CRead _ => True end) emptied /\
  covered reversed_range /\ too_far (Included (f64_of_Z 5), Included (f64_of_Z 1)) = true.
Proof.
  split; [apply filled_iff; vm_compute; reflexivity|]. split; [intros H; apply filled_iff in H; vm_compute in H; done|].
  split; [unfold emptied; repeat apply List.Forall_cons; [..|apply List.Forall_nil]; cbn; auto|].
  - split; [done|]. apply List.Forall_cons; [vm_compute; reflexivity|apply List.Forall_nil].
  - split; vm_compute; auto.
Qed.
