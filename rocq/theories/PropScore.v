(** C34, complete: what ZRANGEBYSCORE and ZREMRANGEBYSCORE do for every interval whose bounds are numbers. *)
From Verif Require Import ZsetInv PropZset Server.
From Verif Require TenthFacts.

(** The numbers that adding 0.1 makes larger: at least -2^50 and below 2^50. *)
Definition moderate (b : f64) : bool := f64_le (f64_of_Z (- 2 ^ 50)) b && f64_lt b (f64_of_Z (2 ^ 50)).
Definition good_bound (b : bound f64) : Prop :=
  match b with Unbounded => True | Included x | Excluded x => f64_valid x = true /\ not_nan x end.
(** The upper bound as the code applies it: members scored exactly at an immoderate bound are lost, save the
    one whose name is empty. *)
Definition kept_below (hi : bound f64) (n : node) : bool :=
  match hi with
  | Unbounded => true
  | Excluded b => f64_lt (n_score n) b
  | Included b => f64_lt (n_score n) b || (f64_eq (n_score n) b && (moderate b || bool_decide (n_key n = [])))
  end.
(** The interval is reversed by more than the 0.1 that is added to its upper end. *)
Definition too_far (r : bound f64 * bound f64) : bool :=
  match r with
  | (Excluded a, Excluded b) => f64_le (f64_add b f64_tenth) a
  | (Included a, Included b) | (Included a, Excluded b) | (Excluded a, Included b) => f64_lt (f64_add b f64_tenth) a
  | _ => false
  end.

Lemma moderate_grows b : f64_valid b = true -> not_nan b -> moderate b = f64_lt b (f64_add b f64_tenth).
Proof.
  intros V N. pose proof (TenthFacts.tenth_grows b V N) as T. apply Bool.eq_true_iff_eq. rewrite T.
  unfold moderate. rewrite andb_true_iff. done.
Qed.
Lemma tenth_le b : f64_valid b = true -> not_nan b ->
  f64_le b (f64_add b f64_tenth) = true /\ not_nan (f64_add b f64_tenth).
Proof.
  intros V N. destruct (TenthFacts.tenth_or_same b V N) as [H|H].
  - split; [by apply f64_lt_le|]. by apply f64_lt_not_nan in H as [_ H].
  - unfold f64_eq, f64_le in *. split; [by destruct (f64_cmp _ _) as [[]|]|].
    rewrite f64_cmp_key in H. apply fkey_nan. destruct (fkey b), (fkey (f64_add b f64_tenth)); try done. eauto.
Qed.

Lemma filter_filter {A} (f g h : A -> bool) l : (forall x, x ∈ l -> g x && f x = h x) ->
  List.filter f (List.filter g l) = List.filter h l.
Proof.
  induction l as [|x l IH]; intros H; [done|]. cbn [List.filter].
  specialize (IH (fun y Hy => H y (elem_of_list_further _ _ _ Hy))). specialize (H x (elem_of_list_here _ _)).
  destruct (g x); cbn [List.filter andb] in *; rewrite <- H; [by rewrite IH|done].
Qed.

Lemma below_kept (hi : bound f64) n : good_bound hi ->
  below (bound_map (fun f => Node (f64_add f f64_tenth) []) hi) n && below_bound hi (n_score n) = kept_below hi n.
Proof.
  destruct hi as [|b|b]; [done| |]; intros [V N]; cbn.
  - rewrite (moderate_grows b V N). destruct (TenthFacts.tenth_or_same b V N) as [T|T]; revert T;
      unfold node_cmp, f64_lt, f64_le, f64_eq; cbn [n_score n_key]; rewrite !f64_cmp_key;
      destruct (fkey b) as [x|] eqn:Eb, (fkey (f64_add b f64_tenth)) as [y|]; try done.
    + destruct (lex3 x y) eqn:E; try done; intros _. destruct (fkey (n_score n)) as [z|]; [|done].
      destruct (lex3 z x) eqn:E1; cbn; [|by rewrite (lex3_trans _ _ _ E1 E)|by rewrite andb_false_r].
      apply lex3_eq in E1 as ->. by rewrite E.
    + destruct (lex3 x y) eqn:E; try done; intros _. destruct (fkey (n_score n)) as [z|]; [|done].
      apply lex3_eq in E as ->. destruct (lex3 z y) eqn:E1; cbn; [|done|done]. by destruct (n_key n).
  - destruct (TenthFacts.tenth_or_same b V N) as [T|T]; revert T;
      unfold node_cmp, f64_lt, f64_le, f64_eq; cbn [n_score n_key]; rewrite !f64_cmp_key;
      destruct (fkey b) as [x|] eqn:Eb, (fkey (f64_add b f64_tenth)) as [y|]; try done.
    + destruct (lex3 x y) eqn:E; try done; intros _. destruct (fkey (n_score n)) as [z|]; [|done].
      destruct (lex3 z x) eqn:E1; cbn; [by rewrite andb_false_r|by rewrite (lex3_trans _ _ _ E1 E)|by rewrite andb_false_r].
    + destruct (lex3 x y) eqn:E; try done; intros _. destruct (fkey (n_score n)) as [z|]; [|done].
      apply lex3_eq in E as ->. destruct (lex3 z y) eqn:E1; cbn; [by rewrite andb_false_r|done|done].
Qed.
Lemma above_kept (lo : bound f64) n :
  above (bound_map (fun f => Node f []) lo) n && above_bound lo (n_score n) = above_bound lo (n_score n).
Proof. destruct (above_bound lo (n_score n)) eqn:E; [|by rewrite andb_false_r]. by rewrite (above_ok lo n E). Qed.

Lemma invalid_far r lo hi : good_bound (fst r) -> good_bound (snd r) -> bigger_range r = (lo, hi) ->
  bt_range_invalid lo hi = too_far r /\ bound_nan lo = false /\ bound_nan hi = false.
Proof.
  destruct r as [a b]. intros Ga Gb [= <- <-]. cbn [fst snd] in *. split; [|split].
  - unfold bt_range_invalid, too_far. destruct a as [|a|a], b as [|b|b]; try done;
      cbn; unfold node_cmp, f64_lt, f64_le; cbn [n_score n_key]; rewrite !f64_cmp_key;
      destruct (fkey a) as [x|], (fkey (f64_add b f64_tenth)) as [y|]; try done; cbn;
      destruct (lex3 x y) eqn:E.
    all: try (apply lex3_eq in E as ->; rewrite (proj2 (lex3_eq y y) eq_refl); done).
    all: try (rewrite (proj2 (lex3_gt y x) E); done).
    all: try (rewrite (proj1 (lex3_gt x y) E); done).
  - destruct a as [|a|a]; [done| |]; cbn; unfold bound_nan, node_nan; cbn; apply Ga.
  - destruct b as [|b|b]; [done| |]; cbn; unfold bound_nan, node_nan; cbn; apply (tenth_le b); apply Gb.
Qed.

Lemma score_search_all r l lo hi : good_bound (fst r) -> good_bound (snd r) -> nanless l -> l <> [] ->
  bigger_range r = (lo, hi) ->
  match bt_range lo hi l with
  | None => too_far r = true
  | Some it => too_far r = false /\
      List.filter (fun n => score_in r (n_score n)) it =
      List.filter (fun n => above_bound (fst r) (n_score n) && kept_below (snd r) n) l
  end.
Proof.
  intros Ga Gb Nl L B. destruct (invalid_far r lo hi Ga Gb B) as (E1 & E2 & E3).
  unfold bt_range. destruct l as [|n l]; [done|]. rewrite E1, E2, E3, (nanless_existsb _ Nl). cbn [orb andb].
  destruct (too_far r); [done|]. split; [done|]. apply filter_filter. intros x _.
  destruct r as [a b]. injection B as <- <-. cbn [fst snd] in *. rewrite score_in_bounds. cbn [fst snd].
  rewrite <- (below_kept b x Gb). rewrite <- (above_kept a x) at 2.
  destruct (above _ x), (below _ x), (above_bound a _), (below_bound b _); done.
Qed.

(** ** C34: the reply to ZRANGEBYSCORE, for every interval with numbers as bounds. *)
Theorem C34_all_ranges (ho : horder) (now : N) (k : bytes) (r : bound f64 * bound f64) (rv : bool) (lim : limit)
    (d : dict) (m : gmap bytes f64) (l : list node) (e : N) :
  contents d k = Some (zset_data m, e) -> lives now e -> no_nans m -> sorted_listing m l -> m <> ∅ ->
  good_bound (fst r) -> good_bound (snd r) -> limit_regular lim ->
  snd (rapply ho now (RZRangeScore k r lim rv) d) =
    if too_far r then OPanic
    else OOk (PNodes (window lim (directed rv
           (List.filter (fun n => above_bound (fst r) (n_score n) && kept_below (snd r) n) l)))).
Proof.
  intros C L I S Hne Ga Gb Rl. rewrite (sorted_listing_unique m l I S).
  destruct (get_stored zset_data now k d e (Some m) L C) as (v & d1 & G & D & X & C1).
  cbn [rapply]. cmd_unfold. rewrite G, D. unfold zset_data.
  destruct (listing_spec m I) as (A & A' & B).
  assert (Ln : listing m <> []).
  { intros E. apply Hne. apply map_eq. intros i. rewrite lookup_empty. destruct (m !! i) as [s|] eqn:Em; [|done].
    assert (Node s i ∈ listing m) as H by (by apply B). rewrite E in H. by apply elem_of_nil in H. }
  destruct (bigger_range r) as [lo hi] eqn:BR.
  pose proof (score_search_all r (listing m) lo hi Ga Gb A' Ln BR) as SS.
  destruct (bt_range lo hi (listing m)) as [it|]; [|by rewrite SS; destruct (shape_limit _ _)].
  destruct SS as [-> E2].
  pose proof (limit_window lim (length (listing m)) (directed rv
    (List.filter (fun n => above_bound (fst r) (n_score n) && kept_below (snd r) n) (listing m))) Rl) as W.
  destruct (shape_limit lim _) as [offset count]. cbn [fst snd outcome_map]. do 2 f_equal.
  etransitivity; [|apply W].
  - do 2 f_equal. unfold directed. destruct rv; [by rewrite filter_rev_l, E2|done].
  - unfold directed. destruct rv; rewrite ?rev_length; apply filter_length_l.
Qed.
Print Assumptions C34_all_ranges.
Example C34_all_ranges_case :
  good_bound (Included (f64_of_Z (2 ^ 60))) /\ moderate (f64_of_Z (2 ^ 60)) = false /\
  moderate (f64_of_Z (- 2 ^ 50)) = true /\ moderate (f64_of_Z (2 ^ 50)) = false /\
  too_far (Included (f64_of_Z 2), Included (f64_of_Z 1)) = true /\
  kept_below (Included (f64_of_Z (2 ^ 60))) (Node (f64_of_Z (2 ^ 60)) (bs "a")) = false /\
  kept_below (Included (f64_of_Z (2 ^ 60))) (Node (f64_of_Z (2 ^ 60)) []) = true.
Proof. repeat split. Qed.

(** The same interval in ZREMRANGEBYSCORE: exactly the members just described are removed and returned. *)
Theorem C34_all_removals (ho : horder) (now : N) (k : bytes) (r : bound f64 * bound f64)
    (d : dict) (m : gmap bytes f64) (l : list node) (e : N) :
  contents d k = Some (zset_data m, e) -> lives now e -> no_nans m -> sorted_listing m l -> m <> ∅ ->
  good_bound (fst r) -> good_bound (snd r) ->
  let gone := List.filter (fun n => above_bound (fst r) (n_score n) && kept_below (snd r) n) l in
  snd (fst (wapply now (WZRemScore k r false) d)) = (if too_far r then OPanic else OOk (PNodes gone)) /\
  contents (fst (fst (wapply now (WZRemScore k r false) d))) k =
    Some (zset_data (if too_far r then m else without_members (map n_key gone) m), e).
Proof.
  intros C L I S Hne Ga Gb. rewrite (sorted_listing_unique m l I S).
  destruct (get_stored zset_data now k d e (Some m) L C) as (v & d1 & G & D & X & C1).
  cbn [wapply]. cmd_unfold. rewrite G, D. cbn [stored] in C1. unfold zset_data in *.
  destruct (listing_spec m I) as (A & A' & B).
  assert (Ln : listing m <> []).
  { intros E. apply Hne. apply map_eq. intros i. rewrite lookup_empty. destruct (m !! i) as [s|] eqn:Em; [|done].
    assert (Node s i ∈ listing m) as H by (by apply B). rewrite E in H. by apply elem_of_nil in H. }
  destruct (bigger_range r) as [lo hi] eqn:BR.
  pose proof (score_search_all r (listing m) lo hi Ga Gb A' Ln BR) as SS.
  destruct (bt_range lo hi (listing m)) as [it|]; [|rewrite SS; split; [done|exact C1]].
  destruct SS as [-> ->]. rewrite zremove_nodes_rep; [|done|apply filter_nodup_l; by apply zsorted_nodup|].
  - cbn [zremove_finish fst snd outcome_map no_exp]. rewrite contents_put. by subst e.
  - intros n Hn. apply B. apply elem_of_list_In in Hn. apply filter_In in Hn as [Hn _]. by apply elem_of_list_In.
Qed.
Print Assumptions C34_all_removals.
Example C34_all_removals_case :
  let d := Dict 0 {[bs "z" := Value (zset_data {[bs "a" := f64_of_Z (2 ^ 60); bs "b" := f64_of_Z 1]}) 0 0]} in
  let o := fst (wapply 0 (WZRemScore (bs "z") (Unbounded, Included (f64_of_Z (2 ^ 60))) false) d) in
  contents (fst o) (bs "z") = Some (zset_data {[bs "a" := f64_of_Z (2 ^ 60)]}, 0%N) /\
  snd o = OOk (PNodes [Node (f64_of_Z 1) (bs "b")]).
Proof. split; apply (bool_decide_eq_true_1 _); vm_compute; reflexivity. Qed.

(** For bounds between -2^50 and 2^50 that are not reversed the answer is the interval. *)
Theorem C34_moderate_exact (ho : horder) (now : N) (k : bytes) (a b : f64) (la lb rv : bool) (lim : limit)
    (d : dict) (m : gmap bytes f64) (l : list node) (e : N) :
  contents d k = Some (zset_data m, e) -> lives now e -> no_nans m -> sorted_listing m l ->
  f64_valid b = true -> f64_le a b = true ->
  f64_le (f64_of_Z (- 2 ^ 50)) b = true -> f64_lt b (f64_of_Z (2 ^ 50)) = true -> limit_regular lim ->
  let r := (if la then Included a else Excluded a, if lb then Included b else Excluded b) in
  snd (rapply ho now (RZRangeScore k r lim rv) d) =
    OOk (PNodes (window lim (directed rv
      (List.filter (fun n => (if la then f64_le a (n_score n) else f64_lt a (n_score n)) &&
                             (if lb then f64_le (n_score n) b else f64_lt (n_score n) b)) l)))).
Proof.
  intros C L I S V AB M1 M2 Rl r.
  assert (N : not_nan a /\ not_nan b).
  { unfold f64_le in AB. rewrite f64_cmp_key in AB. unfold not_nan.
    destruct (fkey a) eqn:E1, (fkey b) eqn:E2; try done. split; apply fkey_nan; eauto. }
  destruct N as [Na Nb].
  assert (G : f64_lt b (f64_add b f64_tenth) = true) by (rewrite <- (moderate_grows b V Nb); unfold moderate; by rewrite M1, M2).
  assert (R : score_range_regular r).
  { unfold r, score_range_regular. destruct la, lb; cbn [fst snd]; done. }
  rewrite (sorted_listing_unique m l I S).
  pose proof (proj1 (proj2 (zset_sim k ho now (ZRangeByScore r lim rv) d e (Some m) (conj R Rl) I L (fun H => ltac:(discriminate H)) C))) as H.
  cbn [zset_cmd flat_cmd] in H. rewrite H. cbn [zset_step snd default]. do 4 f_equal.
  unfold by_score, r. cbn [fst snd]. by destruct la, lb.
Qed.
Print Assumptions C34_moderate_exact.
Example C34_moderate_exact_case :
  f64_valid (f64_of_Z (-7)) = true /\ f64_le (f64_of_Z (-7)) (f64_of_Z (-7)) = true /\
  f64_le (f64_of_Z (- 2 ^ 50)) (f64_of_Z (-7)) = true /\ f64_lt (f64_of_Z (-7)) (f64_of_Z (2 ^ 50)) = true.
Proof. repeat split. Qed.

(** Every bound below -2^50 or from 2^50 on loses the members scored exactly at it: no set with such a member
    whose name is not empty gets the right answer. *)
Theorem C34_immoderate_refuted (ho : horder) (now : N) (k : bytes) (b : f64) (d : dict) (m : gmap bytes f64) (e : N) (x : bytes) (s : f64) :
  contents d k = Some (zset_data m, e) -> lives now e -> no_nans m ->
  f64_valid b = true -> not_nan b -> moderate b = false ->
  m !! x = Some s -> f64_eq s b = true -> x <> [] ->
  exists ns, snd (rapply ho now (RZRangeScore k (Unbounded, Included b) None false) d) = OOk (PNodes ns) /\
    f64_le s b = true /\ Node s x ∉ ns.
Proof.
  intros C L I V N M Hx Hs Nx.
  assert (Hne : m <> ∅) by (intros ->; by rewrite lookup_empty in Hx).
  destruct (listing_spec m I) as (A & A' & B).
  assert (S : sorted_listing m (listing m)) by (by apply listing_sorted).
  pose proof (C34_all_ranges ho now k (Unbounded, Included b) false None d m (listing m) e C L I S Hne Logic.I (conj V N) Logic.I) as H.
  cbn [too_far] in H. eexists. split; [exact H|]. split.
  - unfold f64_eq, f64_le in *. by destruct (f64_cmp s b) as [[]|].
  - intros Hin. cbn [window directed fst snd above_bound andb kept_below] in Hin.
    apply elem_of_list_In in Hin. apply filter_In in Hin as [_ Hin]. cbn [n_score n_key] in Hin.
    rewrite M in Hin. cbn [orb] in Hin. rewrite (bool_decide_eq_false_2 _ Nx), andb_false_r, orb_false_r in Hin.
    unfold f64_eq, f64_lt in *. by destruct (f64_cmp s b) as [[]|].
Qed.
Print Assumptions C34_immoderate_refuted.
Example C34_immoderate_case : f64_valid f64_inf = true /\ not_nan f64_inf /\ moderate f64_inf = false /\ f64_eq f64_inf f64_inf = true.
Proof. repeat split. Qed.

(** The bounds a request carries are always proper binary64 numbers; NaN is the only text that gives none. *)
Theorem C34_request_bounds (t : bytes) (b : bound f64) : float_bound t = AOk b ->
  match b with Unbounded => False | Included x | Excluded x => f64_valid x = true end.
Proof.
  unfold float_bound, float_of. intros H. destruct (_ && _); [done|].
  destruct t as [|c t']; [|destruct (byte_eq_dec c x28)];
    match type of H with context [parse_f64 ?u] => destruct (parse_f64 u) as [x|] eqn:E end; try done;
    injection H as <-; by apply TenthFacts.parse_f64_valid in E.
Qed.
Print Assumptions C34_request_bounds.
Example C34_request_bounds_case : float_bound (bs "(1e3") = AOk (Excluded (f64_of_Z 1000)).
Proof. vm_compute. reflexivity. Qed.

(** Which interval a request by score asks for, in which direction, and which part of it: the reversed requests name the upper bound first. *)
Inductive score_request : request -> bytes -> bytes -> bytes -> bool -> limit -> Prop :=
  | sr_up k lo hi sc lim : score_request (QZrangebyscore k lo hi sc lim) k lo hi false lim
  | sr_down k lo hi sc lim : score_request (QZrevrangebyscore k hi lo sc lim) k lo hi true lim
  | sr_range_up k lo hi lim sc : score_request (QZrange k lo hi (RangeOpts ByScore false lim sc)) k lo hi false lim
  | sr_range_down k lo hi lim sc : score_request (QZrange k hi lo (RangeOpts ByScore true lim sc)) k lo hi true lim.
Theorem C34_requests t q k lo hi rv lim a b : score_request q k lo hi rv lim -> float_bound lo = AOk a -> float_bound hi = AOk b ->
  plan_of t q = AOk (PCmds [CRead (RZRangeScore k (a, b) lim rv)]).
Proof. intros Q A B. destruct Q; cbn [plan_of ro_order ro_rev ro_limit]; unfold two; by rewrite A, B. Qed.
Print Assumptions C34_requests.
Theorem C34_removal_requests t k lo hi a b : float_bound lo = AOk a -> float_bound hi = AOk b ->
  plan_of t (QZremrangebyscore k lo hi) = AOk (PCmds [CWrite (WZRemScore k (a, b) false)]).
Proof. intros A B. cbn [plan_of]. unfold two. by rewrite A, B. Qed.
Print Assumptions C34_removal_requests.
Example C34_requests_case : score_request (QZrevrangebyscore (bs "z") (bs "2") (bs "(1") false None) (bs "z") (bs "(1") (bs "2") true None /\
  float_bound (bs "(1") = AOk (Excluded (f64_of_Z 1)) /\ float_bound (bs "2") = AOk (Included (f64_of_Z 2)).
Proof. split; [constructor|]. split; vm_compute; reflexivity. Qed.

(** The same for requests by name (C36) and by rank (C33); ranks are counted from the end that the listing starts with, and are not swapped. *)
Inductive name_request : request -> bytes -> bytes -> bytes -> bool -> limit -> Prop :=
  | nr_up k lo hi lim : name_request (QZrangebylex k lo hi lim) k lo hi false lim
  | nr_down k lo hi lim : name_request (QZrevrangebylex k hi lo lim) k lo hi true lim
  | nr_range_up k lo hi lim sc : name_request (QZrange k lo hi (RangeOpts ByLex false lim sc)) k lo hi false lim
  | nr_range_down k lo hi lim sc : name_request (QZrange k hi lo (RangeOpts ByLex true lim sc)) k lo hi true lim.
Theorem C36_requests t q k lo hi rv lim a b : name_request q k lo hi rv lim -> lex_bound lo = AOk a -> lex_bound hi = AOk b ->
  plan_of t q = AOk (PCmds [CRead (RZRangeLex k (a, b) lim rv)]).
Proof. intros Q A B. destruct Q; cbn [plan_of ro_order ro_rev ro_limit]; unfold two; by rewrite A, B. Qed.
Print Assumptions C36_requests.
Example C36_requests_case : name_request (QZrevrangebylex (bs "z") (bs "+") (bs "(a") None) (bs "z") (bs "(a") (bs "+") true None /\
  lex_bound (bs "(a") = AOk (Excluded (bs "a")) /\ lex_bound (bs "+") = AOk Unbounded.
Proof. split; [constructor|]. split; vm_compute; reflexivity. Qed.
Inductive rank_request : request -> bytes -> bytes -> bytes -> bool -> limit -> Prop :=
  | rr_down k from to sc : rank_request (QZrevrange k from to sc) k from to true None
  | rr_range k from to rv lim sc : rank_request (QZrange k from to (RangeOpts ByRank rv lim sc)) k from to rv lim.
Theorem C33_requests t q k from to rv lim a b : rank_request q k from to rv lim -> int_of from = AOk a -> int_of to = AOk b ->
  plan_of t q = AOk (PCmds [CRead (RZRangeRank k a b lim rv)]).
Proof. intros Q A B. destruct Q; cbn [plan_of ro_order ro_rev ro_limit]; unfold two; by rewrite A, B. Qed.
Print Assumptions C33_requests.
Example C33_requests_case : rank_request (QZrevrange (bs "z") (bs "0") (bs "-1") true) (bs "z") (bs "0") (bs "-1") true None /\
  int_of (bs "0") = AOk 0%Z /\ int_of (bs "-1") = AOk (-1)%Z.
Proof. split; [constructor|]. split; vm_compute; reflexivity. Qed.
