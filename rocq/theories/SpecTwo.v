(** Sorted sets exactly as the code has them, also after ZADD INCR and with NaN scores: twoset indexes that may disagree.
    One is the book, which records one node per member; the other is the ordered list of nodes that queries show.
    ZADD INCR records the increment but shows the sum; removing a member drops the recorded node from
    the list, whether or not it is there.  The node recorded for a member carries the member's own name, unless RESTORE
    was given a forged payload: then ZREM of the member drops the node of somebody else.  Everything is stated with filters on lists; nothing refers to the trees of
    the model. *)
From Verif Require Export SpecMeaning PropExact PropScore PropPanic.

Record twoset := Two { tw_book : gmap bytes node; tw_shown : list node }.
Definition two_data (t : twoset) : data := DZSet (tw_book t) (tw_shown t).
(** The listed nodes are in strict order (so a NaN can only be alone). *)
Definition two_ok (s : option twoset) : Prop := match s with Some t => StronglySorted node_before (tw_shown t) | None => True end.

(** ** Lists of nodes *)
Definition same_node (a b : node) : bool := f64_eq (n_score a) (n_score b) && bool_decide (n_key a = n_key b).
Definition drop_node (n : node) (l : list node) : list node := List.filter (fun x => negb (same_node n x)) l.
(** At its place in the order; a node that is there already stays as it is. *)
Definition insert_node (n : node) (l : list node) : list node :=
  if existsb (same_node n) l then l
  else List.filter (fun x => node_beforeb x n) l ++ n :: List.filter (fun x => node_beforeb n x) l.
Definition has_nan (l : list node) : bool := existsb (fun n => f64_is_nan (n_score n)) l.
(** Looking for [n] in [l] compares a NaN: the handler dies. *)
Definition nan_met (n : node) (l : list node) : bool :=
  match l with [] => false | _ => f64_is_nan (n_score n) || has_nan l end.

(** ** ZADD and ZREM, one member after the other, until the handler dies *)
Record tally := Tally { ta_set : twoset; ta_written : nat; ta_dead : bool }.
Definition add_one (nx : nx_xx) (gl : gt_lt) (incr : bool) (p : tally) (n : node) : tally :=
  if ta_dead p then p else
  let 'Two book l := ta_set p in
  let old := book !! n_key n in
  if code_zadd_table nx gl (n_score <$> old) (n_score n) then
    let book' := <[n_key n := n]> book in
    let w := S (ta_written p) in
    let l' := match old with Some o => drop_node o l | None => l end in
    let shown := match old with Some o => if incr then Node (f64_add (n_score n) (n_score o)) (n_key n) else n | None => n end in
    if match old with Some o => nan_met o l | None => false end then Tally (Two book' l) w true
    else if nan_met shown l' then Tally (Two book' l') w true
    else Tally (Two book' (insert_node shown l')) w false
  else p.
Definition rem_one (p : twoset * bool) (m : bytes) : twoset * bool :=
  let '(Two book l, dead) := p in
  if dead then p else
  match book !! m with
  | None => p
  | Some o => if nan_met o l then (Two (delete m book) l, true)
              else (Two (delete m book) (drop_node o l), false)
  end.

(** ** Removing listed nodes: they leave the list, their members leave the book; reported are the recorded nodes *)
Fixpoint firsts (l : list bytes) : list bytes :=
  match l with [] => [] | x :: l' => x :: List.filter (fun y => negb (bool_decide (y = x))) (firsts l') end.
Definition recorded (book : gmap bytes node) (ks : list bytes) : list node := omap (fun k => book !! k) ks.
Definition struck (ks : list bytes) (book : gmap bytes node) : gmap bytes node := filter (fun p => p.1 ∉ ks) book.
Definition remove_nodes (gone : list node) (t : twoset) : twoset * outcome resp :=
  let 'Two book l := t in
  match gone with
  | [] => (t, OOk (PNodes []))
  | _ =>
      if has_nan l then (t, OPanic)
      else (Two (struck (map n_key gone) book) (List.filter (fun x => negb (existsb (same_node x) gone)) l),
            OOk (PNodes (recorded book (firsts (map n_key gone)))))
  end.

(** ** What the queries select from the listed nodes *)
(** Positions [a] to [b], negative ones counted from the end of a list of [n] elements. *)
Definition slice_as (n : nat) (a b : Z) (l : list node) : list node :=
  map snd (List.filter (fun p => (from_end n a <=? fst p)%Z && (fst p <=? Z.min (Z.of_nat n - 1) (from_end n b))%Z) (positions 0 l)).
Definition open_ended {A} (r : bound A * bound A) : bool := match r with (Unbounded, Unbounded) => true | _ => false end.
(** The search dies (on lists that are not empty). *)
Definition score_dies (r : bound f64 * bound f64) (l : list node) : bool :=
  match l with [] => false | _ => score_trouble r || (has_nan l && negb (open_ended r)) end.
Definition lex_dies (r : bound bytes * bound bytes) (l : list node) : bool :=
  match l with [] => false | _ => lex_trouble r || (has_nan l && negb (open_ended r)) end.
Definition score_found (r : bound f64 * bound f64) (l : list node) : list node :=
  List.filter (fun n => above_bound (fst r) (n_score n) && kept_below (snd r) n) l.
(** By name: the interval applies to the members with the lowest score; all others are found if there is no upper bound. *)
Definition lex_found (r : bound bytes * bound bytes) (l : list node) : list node :=
  match l with
  | [] => []
  | n0 :: _ => List.filter (fun n =>
      if f64_eq (n_score n0) (n_score n) then lex_above (fst r) (n_key n) && lex_below (snd r) (n_key n)
      else match snd r with Unbounded => true | _ => false end) l
  end.
(** LIMIT: a negative offset skips [n - offset] nodes, [n] the length of the whole list: that is all of them, unless
    the difference exceeds 64 bits and becomes negative. *)
Definition limited (n : nat) (lim : limit) (l : list node) : list node :=
  match lim with
  | Some (o, c) => window (Some (if (0 <=? o)%Z then o else Z.max 0 (as_i64 (Z.of_nat n - o)), c)) l
  | None => l
  end.

(** ** The machine *)
Inductive two_op :=
  | TAdd (ns : list node) (nx : nx_xx) (gl : gt_lt) (incr : bool)
  | TRem (ms : list bytes)
  | TRemRank (a b : Z)
  | TRemScore (r : bound f64 * bound f64)
  | TRemLex (r : bound bytes * bound bytes)
  | TRank (m : bytes) (rv : bool)
  | TRange (a b : Z) (lim : limit) (rv : bool)
  | TRangeByScore (r : bound f64 * bound f64) (lim : limit) (rv : bool)
  | TRangeByLex (r : bound bytes * bound bytes) (lim : limit) (rv : bool).

Definition two_cmd (k : bytes) (o : two_op) : cmd :=
  match o with
  | TAdd ns nx gl incr => CWrite (WZAdd k ns nx gl incr)
  | TRem ms => CWrite (WZRemove k ms)
  | TRemRank a b => CWrite (WZRemRank k a b false)
  | TRemScore r => CWrite (WZRemScore k r false)
  | TRemLex r => CWrite (WZRemLex k r false)
  | TRank m rv => CRead (RZRank k m rv)
  | TRange a b lim rv => CRead (RZRangeRank k a b lim rv)
  | TRangeByScore r lim rv => CRead (RZRangeScore k r lim rv)
  | TRangeByLex r lim rv => CRead (RZRangeLex k r lim rv)
  end.

Definition two_step (o : two_op) (s : option twoset) : option twoset * outcome resp :=
  match o, s with
  | TAdd ns nx gl incr, _ =>
      let t := default (Two ∅ []) s in
      let p := fold_left (add_one nx gl incr) ns (Tally t 0 false) in
      (Some (ta_set p),
       if ta_dead p then OPanic else OOk (PZadd (ZaddResp (size (tw_book t)) (size (tw_book (ta_set p))) (ta_written p))))
  | TRem ms, None => (None, OOk (PLens (Lens 0 0)))
  | TRem ms, Some t =>
      let p := fold_left rem_one ms (t, false) in
      (Some (fst p), if snd p then OPanic else OOk (PLens (Lens (size (tw_book t)) (size (tw_book (fst p))))))
  | TRank _ _, None => (None, OOk (POptNat None))
  | _, None => (None, OOk (PNodes []))
  | TRemRank a b, Some t =>
      let p := remove_nodes (slice_as (size (tw_book t)) a b (tw_shown t)) t in (Some (fst p), snd p)
  | TRemScore r, Some t =>
      if score_dies r (tw_shown t) then (s, OPanic)
      else let p := remove_nodes (score_found r (tw_shown t)) t in (Some (fst p), snd p)
  | TRemLex r, Some t =>
      if lex_dies r (tw_shown t) then (s, OPanic)
      else let p := remove_nodes (lex_found r (tw_shown t)) t in (Some (fst p), snd p)
  | TRank m rv, Some t =>
      (s, OOk (POptNat (match tw_book t !! m with Some _ => index_of m (directed rv (tw_shown t)) | None => None end)))
  | TRange a b lim rv, Some t =>
      (s, OOk (PNodes (limited (length (tw_shown t)) lim (slice a b (directed rv (tw_shown t))))))
  | TRangeByScore r lim rv, Some t =>
      (s, if score_dies r (tw_shown t) then OPanic
          else OOk (PNodes (limited (length (tw_shown t)) lim (directed rv (score_found r (tw_shown t))))))
  | TRangeByLex r lim rv, Some t =>
      (s, if lex_dies r (tw_shown t) then OPanic
          else OOk (PNodes (limited (length (tw_shown t)) lim (directed rv (lex_found r (tw_shown t))))))
  end.

(** Bounds are binary64 values. *)
Definition two_fits (o : two_op) : Prop :=
  match o with
  | TRemScore r | TRangeByScore r _ _ => valid_bound (fst r) /\ valid_bound (snd r)
  | _ => True
  end.

(** ** Requests *)
(** Texts of lexicographic bounds; both "-" and "+" mean no bound, on either side. *)
Definition name_text (b : bound bytes) (t : bytes) : Prop := lex_text true b t \/ lex_text false b t.
(** The reply to an operation that succeeded with [r]. *)
Definition nodes_reply (en : env) (sc : bool) (r : resp) : frame := match r with PNodes l => listed en sc l | _ => FNull end.
Definition removed_reply (r : resp) : frame := match r with PNodes l => counted (length l) | _ => FNull end.
Definition shrunk_reply (r : resp) : frame := match r with PLens l => counted (old_len l - new_len l) | _ => FNull end.
Definition grown_reply (ch : bool) (r : resp) : frame :=
  match r with PZadd r => counted (if ch then za_new r else za_new r - za_old r) | _ => FNull end.
Definition place_reply (r : resp) : frame := match r with POptNat o => position_reply o | _ => FNull end.

(** Every request about a sorted set with well-formed texts: its key, the operation and how the reply is shown. *)
Inductive two_request (en : env) : request -> bytes -> two_op -> (resp -> frame) -> Prop :=
  | tq_add k o ns : two_request en (QZadd k o ns) k (TAdd (map (fun n => Node (fst n) (snd n)) ns) (zo_nx o) (zo_gl o) (zo_incr o)) (grown_reply (zo_ch o))
  | tq_rem k ms : two_request en (QZrem k ms) k (TRem ms) shrunk_reply
  | tq_rank k m : two_request en (QZrank k m) k (TRank m false) place_reply
  | tq_revrank k m : two_request en (QZrevrank k m) k (TRank m true) place_reply
  | tq_range k lo hi a b o : ro_order o = ByRank -> int_text a lo -> int_text b hi ->
      two_request en (QZrange k lo hi o) k (TRange a b (ro_limit o) (ro_rev o)) (nodes_reply en (ro_scores o))
  | tq_revrange k lo hi a b sc : int_text a lo -> int_text b hi ->
      two_request en (QZrevrange k lo hi sc) k (TRange a b None true) (nodes_reply en sc)
  | tq_byscore k t u lo hi lim sc : score_text lo t -> score_text hi u ->
      two_request en (QZrangebyscore k t u sc lim) k (TRangeByScore (lo, hi) lim false) (nodes_reply en sc)
  | tq_revbyscore k t u lo hi lim sc : score_text lo t -> score_text hi u ->
      two_request en (QZrevrangebyscore k u t sc lim) k (TRangeByScore (lo, hi) lim true) (nodes_reply en sc)
  | tq_range_byscore k t u lo hi o : ro_order o = ByScore -> score_text lo t -> score_text hi u ->
      two_request en (QZrange k (if ro_rev o then u else t) (if ro_rev o then t else u) o) k
        (TRangeByScore (lo, hi) (ro_limit o) (ro_rev o)) (nodes_reply en (ro_scores o))
  | tq_bylex k t u lo hi lim : name_text lo t -> name_text hi u ->
      two_request en (QZrangebylex k t u lim) k (TRangeByLex (lo, hi) lim false) (nodes_reply en false)
  | tq_revbylex k t u lo hi lim : name_text lo t -> name_text hi u ->
      two_request en (QZrevrangebylex k u t lim) k (TRangeByLex (lo, hi) lim true) (nodes_reply en false)
  | tq_range_bylex k t u lo hi o : ro_order o = ByLex -> name_text lo t -> name_text hi u ->
      two_request en (QZrange k (if ro_rev o then u else t) (if ro_rev o then t else u) o) k
        (TRangeByLex (lo, hi) (ro_limit o) (ro_rev o)) (nodes_reply en (ro_scores o))
  | tq_remrank k a b : two_request en (QZremrangebyrank k a b) k (TRemRank a b) removed_reply
  | tq_remscore k t u lo hi : score_text lo t -> score_text hi u ->
      two_request en (QZremrangebyscore k t u) k (TRemScore (lo, hi)) removed_reply
  | tq_remlex k t u lo hi : name_text lo t -> name_text hi u ->
      two_request en (QZremrangebylex k t u) k (TRemLex (lo, hi)) removed_reply.

(** The handler dies: no reply; then [y] is visible at the key, and all other keys are as they were. *)
Definition dies (en : env) (clock : nat -> N) (oth : nat -> effects -> effects) (q : request) (e : effects) (k : bytes)
    (y : option (data * N)) : Prop :=
  exists e', serve_request en clock oth q e = (e', inr HPanic) /\
    db_view (clock 1%nat) (ef_db e') k = y /\
    forall j, j <> k -> db_raw (ef_db e') j = db_raw (ef_db (oth 0%nat e)) j.
