(** component/dict/src/cmd/sorted_set/*.rs and the parts of std::collections::BTreeSet it uses. *)
From Verif Require Export CmdDeque.

(** ** Node order: derived [Ord for Node] (data_type/sorted_set.rs:7): score first, then key.
    [Float::cmp] unwraps [partial_cmp], so comparing a NaN panics: [None]. *)
Definition node_cmp (a b : node) : option comparison :=
  match f64_cmp (n_score a) (n_score b) with
  | None => None
  | Some Eq => Some (bytes_cmp (n_key a) (n_key b))
  | Some c => Some c
  end.

(** A score for which float.rs:34 unwraps [None]. *)
Definition node_nan (n : node) : bool := f64_is_nan (n_score n).

(** ** BTreeSet<Node>, as the strictly increasing list of its elements.

    Inserting into, removing from or searching in a non-empty tree compares the searched node with at
    least one element.  A NaN is therefore detected (panic, result [None]) as soon as the tree is
    non-empty and either the argument or the tree contains one; consequently a tree containing a NaN
    is always the singleton {NaN}. data_type/sorted_set.rs:35. *)
Definition bt_clash (n : node) (l : list node) : bool :=
  match l with
  | [] => false
  | _ => node_nan n || existsb node_nan l
  end.

(** The search and insertion of [BTreeSet::insert] (sorted_set/add.rs:76). *)
Fixpoint ins (n : node) (l : list node) : list node :=
  match l with
  | [] => [n]
  | x :: l' =>
      match node_cmp n x with
      | Some Lt => n :: l
      | Some Eq => l
      | _ => x :: ins n l'
      end
  end.
(** [BTreeSet::insert]: sorted_set/add.rs:76. *)
Definition bt_insert (n : node) (l : list node) : option (list node) :=
  if bt_clash n l then None else Some (ins n l).

(** The search and removal of [BTreeSet::remove] (sorted_set/add.rs:71, remove.rs). *)
Fixpoint del (n : node) (l : list node) : list node :=
  match l with
  | [] => []
  | x :: l' =>
      match node_cmp n x with
      | Some Eq => l'
      | Some Lt => l
      | _ => x :: del n l'
      end
  end.
(** [BTreeSet::remove]: sorted_set/add.rs:71. *)
Definition bt_remove (n : node) (l : list node) : option (list node) :=
  if bt_clash n l then None else Some (del n l).

(** The value in a [Bound], for the checks of [BTreeSet::range] (range_by_score.rs, range_by_lex.rs). *)
Definition bound_val {A} (b : bound A) : option A :=
  match b with Unbounded => None | Included a | Excluded a => Some a end.

(** The two panics of [BTreeSet::range] (std: "range start is greater than range end in BTreeSet",
    "range start and end are equal and excluded in BTreeSet"). *)
Definition bt_range_invalid (lo hi : bound node) : bool :=
  match bound_val lo, bound_val hi with
  | Some s, Some e =>
      match node_cmp s e with
      | Some Gt => true
      | Some Eq => match lo, hi with Excluded _, Excluded _ => true | _, _ => false end
      | _ => false
      end
  | _, _ => false
  end.

(** Whether a node lies above a lower bound ([BTreeSet::range], range_by_lex.rs). *)
Definition above (lo : bound node) (n : node) : bool :=
  match lo with
  | Unbounded => true
  | Included s => match node_cmp s n with Some Lt | Some Eq => true | _ => false end
  | Excluded s => match node_cmp s n with Some Lt => true | _ => false end
  end.
(** Whether a node lies below an upper bound ([BTreeSet::range], range_by_lex.rs). *)
Definition below (hi : bound node) (n : node) : bool :=
  match hi with
  | Unbounded => true
  | Included e => match node_cmp n e with Some Lt | Some Eq => true | _ => false end
  | Excluded e => match node_cmp n e with Some Lt => true | _ => false end
  end.

(** A bound whose comparison unwraps [None] (float.rs:34). *)
Definition bound_nan (b : bound node) : bool :=
  match bound_val b with Some n => node_nan n | None => false end.

(** [BTreeSet::range].  An empty tree is never searched (simplification: a tree emptied by removals
    keeps its root and would still perform the validity check).  With a NaN bound, or a NaN element
    and any bound, the search panics (simplification: when the lower bound already excludes every
    element the real search may not look at a NaN upper bound). range_by_score.rs, range_by_lex.rs. *)
Definition bt_range (lo hi : bound node) (l : list node) : option (list node) :=
  match l with
  | [] => Some []
  | _ =>
      if bt_range_invalid lo hi then None
      else if bound_nan lo || bound_nan hi then None
      else if existsb node_nan l && (match lo, hi with Unbounded, Unbounded => false | _, _ => true end)
      then None
      else Some (List.filter (fun n => above lo n && below hi n) l)
  end.

(** ** Helpers of sorted_set/mod.rs *)

(** mod.rs:17-30.  [len as i64 - offset] wraps in release for offset = i64::MIN. *)
Definition shape_limit (lim : limit) (len : nat) : N * N :=
  match lim with
  | Some (offset, count) =>
      let offset := if (offset <? 0)%Z then Z.max 0 (wrap_i64 (Z.of_nat len - offset)) else offset in
      (Z.to_N offset, if (count <? 0)%Z then N.of_nat len else Z.to_N count)
  | None => (0%N, N.of_nat len)
  end.

(** mod.rs:52-63 *)
Definition bigger_range (r : bound f64 * bound f64) : bound node * bound node :=
  (bound_map (fun f => Node f []) (fst r),
   bound_map (fun f => Node (f64_add f f64_tenth) []) (snd r)).

(** [(Bound, Bound)::contains] of std (RangeBounds), on scores. *)
Definition score_in (r : bound f64 * bound f64) (x : f64) : bool :=
  (match fst r with
   | Unbounded => true | Included s => f64_le s x | Excluded s => f64_lt s x end) &&
  (match snd r with
   | Unbounded => true | Included e => f64_le x e | Excluded e => f64_lt x e end).

(** ** ZADD: add.rs *)

(** add.rs:52-67 *)
Definition zadd_can (nx : nx_xx) (gl : gt_lt) (old : option node) (n : node) : bool :=
  match nx, gl with
  | NxXx_Nx, GtLt_None => match old with Some _ => false | None => true end
  | NxXx_Nx, _ => false
  | _, GtLt_Gt => match old with Some x => f64_lt (n_score x) (n_score n) | None => false end
  | _, GtLt_Lt => match old with Some x => f64_gt (n_score x) (n_score n) | None => false end
  | NxXx_Xx, GtLt_None => match old with Some _ => true | None => false end
  | NxXx_None, GtLt_None => true
  end.

(** Loop state of add.rs:50-78: hash, value, update_len; the boolean says whether the loop panicked
    (the state is then the one left behind by unwinding). *)
Record zstate := ZState { z_hash : gmap bytes node; z_value : list node; z_upd : nat }.

(** add.rs:51-78, one iteration *)
Definition zadd_node (nx : nx_xx) (gl : gt_lt) (incr : bool) (z : zstate) (n : node) : zstate * bool :=
  let old := z_hash z !! n_key n in
  if zadd_can nx gl old n then
    let h := <[n_key n := n]> (z_hash z) in
    let u := S (z_upd z) in
    match old with
    | Some on =>
        match bt_remove on (z_value z) with
        | None => (ZState h (z_value z) u, true)
        | Some v1 =>
            let n' := if incr then Node (f64_add (n_score n) (n_score on)) (n_key n) else n in
            match bt_insert n' v1 with
            | None => (ZState h v1 u, true)
            | Some v2 => (ZState h v2 u, false)
            end
        end
    | None =>
        match bt_insert n (z_value z) with
        | None => (ZState h (z_value z) u, true)
        | Some v2 => (ZState h v2 u, false)
        end
    end
  else (z, false).

(** sorted_set/add.rs:51-78 *)
Fixpoint zadd_loop (nx : nx_xx) (gl : gt_lt) (incr : bool) (z : zstate) (ns : list node) : zstate * bool :=
  match ns with
  | [] => (z, false)
  | n :: ns' =>
      let '(z', p) := zadd_node nx gl incr z n in
      if p then (z', true) else zadd_loop nx gl incr z' ns'
  end.

(** add.rs:26-33 *)
Record zadd_resp := ZaddResp { za_old : nat; za_new : nat; za_upd : nat }.

(** add.rs:42-87 *)
Definition zadd_apply (now : N) (k : bytes) (ns : list node) (nx : nx_xx) (gl : gt_lt) (incr : bool) (d : dict)
  : dict * outcome zadd_resp :=
  let '(d1, v) := get_or_insert_with now k (fresh_value now (DZSet ∅ [])) d in
  match v_data v with
  | DZSet h l =>
      let '(z, p) := zadd_loop nx gl incr (ZState h l 0) ns in
      (dict_put k (with_data v (DZSet (z_hash z) (z_value z))) d1,
       if p then OPanic else OOk (ZaddResp (size h) (size (z_hash z)) (z_upd z)))
  | _ => (d1, OErr EWrongType)
  end.

(** ** ZREM: remove.rs:30-52 *)
Fixpoint zrem_loop (h : gmap bytes node) (l : list node) (ms : list bytes)
  : gmap bytes node * list node * bool :=
  match ms with
  | [] => (h, l, false)
  | m :: ms' =>
      match h !! m with
      | Some on =>
          let h' := delete m h in
          match bt_remove on l with
          | None => (h', l, true)
          | Some l' => zrem_loop h' l' ms'
          end
      | None => zrem_loop h l ms'
      end
  end.

(** sorted_set/remove.rs: [apply] *)
Definition zrem_apply (now : N) (k : bytes) (ms : list bytes) (d : dict) : dict * outcome lens :=
  let '(d1, o) := dict_get now k d in
  match o with
  | Some v =>
      match v_data v with
      | DZSet h l =>
          let '(h', l', p) := zrem_loop h l ms in
          (dict_put k (with_data v (DZSet h' l')) d1,
           if p then OPanic else OOk (Lens (size h) (size h')))
      | _ => (d1, OErr EWrongType)
      end
  | None => (d1, OOk (Lens 0 0))
  end.

(** ** Removal of a sequence of nodes taken from a clone of [value]
    (bodies of the loops at remove_by_lex_range.rs:40-54, remove_by_rank_range.rs:31-57,
    remove_by_score_range.rs:35-53). *)
Fixpoint zremove_nodes (h : gmap bytes node) (l : list node) (ns : list node)
  : gmap bytes node * list node * list node * bool :=
  match ns with
  | [] => (h, l, [], false)
  | n :: ns' =>
      match bt_remove n l with
      | None => (h, l, [], true)
      | Some l' =>
          let '(h', l'', res, p) := zremove_nodes (delete (n_key n) h) l' ns' in
          (h', l'', match h !! n_key n with Some x => x :: res | None => res end, p)
      end
  end.

(** The end of [apply] in remove_by_lex_range.rs, remove_by_rank_range.rs and remove_by_score_range.rs. *)
Definition zremove_finish (k : bytes) (v : value) (d1 : dict)
    (r : gmap bytes node * list node * list node * bool) : dict * outcome (list node) :=
  let '(h', l', res, p) := r in
  (dict_put k (with_data v (DZSet h' l')) d1, if p then OPanic else OOk res).

(** remove_by_rank_range.rs:31-57: the loop skips indexes below [start] and breaks at [stop]. *)
Fixpoint rank_scan (start stop : N) (l : list (N * node)) : list node :=
  match l with
  | [] => []
  | (i, n) :: l' =>
      if (i <? start)%N then rank_scan start stop l'
      else if (stop <=? i)%N then []
      else n :: rank_scan start stop l'
  end.

(** [Iterator::enumerate] (range_by_rank.rs) *)
Fixpoint enumerate_from {A} (i : N) (l : list A) : list (N * A) :=
  match l with
  | [] => []
  | x :: l' => (i, x) :: enumerate_from (i + 1) l'
  end.
(** [Iterator::enumerate]: range_by_rank.rs. *)
Definition enumerate {A} (l : list A) : list (N * A) := enumerate_from 0 l.

(** remove_by_rank_range.rs:26-65 (the rank interval is shaped with [hash.len()]) *)
Definition zremrange_rank_apply (now : N) (k : bytes) (start stop : Z) (rv : bool) (d : dict)
  : dict * outcome (list node) :=
  let '(d1, o) := dict_get now k d in
  match o with
  | Some v =>
      match v_data v with
      | DZSet h l =>
          let '(b, e) := shape_rank start stop (size h) in
          let ns := rank_scan b e (if rv then rev (enumerate l) else enumerate l) in
          zremove_finish k v d1 (zremove_nodes h l ns)
      | _ => (d1, OErr EWrongType)
      end
  | None => (d1, OOk [])
  end.

(** remove_by_score_range.rs:28-61 *)
Definition zremrange_score_apply (now : N) (k : bytes) (r : bound f64 * bound f64) (rv : bool) (d : dict)
  : dict * outcome (list node) :=
  let '(d1, o) := dict_get now k d in
  match o with
  | Some v =>
      match v_data v with
      | DZSet h l =>
          let '(lo, hi) := bigger_range r in
          match bt_range lo hi l with
          | None => (d1, OPanic)
          | Some it =>
              let it := if rv then rev it else it in
              zremove_finish k v d1 (zremove_nodes h l (List.filter (fun n => score_in r (n_score n)) it))
          end
      | _ => (d1, OErr EWrongType)
      end
  | None => (d1, OOk [])
  end.

(** range_by_lex.rs:26-39, remove_by_lex_range.rs:29-36: bounds at the score of the first element. *)
Definition lex_range (s : f64) (r : bound bytes * bound bytes) : bound node * bound node :=
  (bound_map (Node s) (fst r), bound_map (Node s) (snd r)).

(** remove_by_lex_range.rs:26-62 *)
Definition zremrange_lex_apply (now : N) (k : bytes) (r : bound bytes * bound bytes) (rv : bool) (d : dict)
  : dict * outcome (list node) :=
  let '(d1, o) := dict_get now k d in
  match o with
  | Some v =>
      match v_data v with
      | DZSet h l =>
          match l with
          | [] => (d1, OOk [])
          | n0 :: _ =>
              let '(lo, hi) := lex_range (n_score n0) r in
              match bt_range lo hi l with
              | None => (d1, OPanic)
              | Some it =>
                  zremove_finish k v d1 (zremove_nodes h l (if rv then rev it else it))
              end
          end
      | _ => (d1, OErr EWrongType)
      end
  | None => (d1, OOk [])
  end.

(** ** Reads *)

(** range_by_rank.rs:22-57 *)
Definition zrange_rank_apply (now : N) (k : bytes) (start stop : Z) (lim : limit) (rv : bool) (d : dict)
  : dict * outcome (list node) :=
  let '(d1, o) := dict_get now k d in
  match o with
  | Some v =>
      match v_data v with
      | DZSet h l =>
          let '(offset, count) := shape_limit lim (length l) in
          let '(b, e) := shape_rank start stop (length l) in
          let it := enumerate (if rv then rev l else l) in
          let it := List.filter (fun p => (b <=? fst p)%N && (fst p <? e)%N) it in
          (d1, OOk (map snd (take_N count (drop_N offset it))))
      | _ => (d1, OErr EWrongType)
      end
  | None => (d1, OOk [])
  end.

(** range_by_score.rs:22-52 *)
Definition zrange_score_apply (now : N) (k : bytes) (r : bound f64 * bound f64) (lim : limit) (rv : bool) (d : dict)
  : dict * outcome (list node) :=
  let '(d1, o) := dict_get now k d in
  match o with
  | Some v =>
      match v_data v with
      | DZSet h l =>
          let '(lo, hi) := bigger_range r in
          let '(offset, count) := shape_limit lim (length l) in
          match bt_range lo hi l with
          | None => (d1, OPanic)
          | Some it =>
              let it := if rv then rev it else it in
              let it := List.filter (fun n => score_in r (n_score n)) it in
              (d1, OOk (take_N count (drop_N offset it)))
          end
      | _ => (d1, OErr EWrongType)
      end
  | None => (d1, OOk [])
  end.

(** range_by_lex.rs:22-54 *)
Definition zrange_lex_apply (now : N) (k : bytes) (r : bound bytes * bound bytes) (lim : limit) (rv : bool) (d : dict)
  : dict * outcome (list node) :=
  let '(d1, o) := dict_get now k d in
  match o with
  | Some v =>
      match v_data v with
      | DZSet h l =>
          match l with
          | [] => (d1, OOk [])
          | n0 :: _ =>
              let '(lo, hi) := lex_range (n_score n0) r in
              let '(offset, count) := shape_limit lim (length l) in
              match bt_range lo hi l with
              | None => (d1, OPanic)
              | Some it =>
                  let it := if rv then rev it else it in
                  (d1, OOk (take_N count (drop_N offset it)))
              end
          end
      | _ => (d1, OErr EWrongType)
      end
  | None => (d1, OOk [])
  end.

(** rank.rs:18-32: index of the first element whose key is the member. *)
Fixpoint position (m : bytes) (i : nat) (l : list node) : option nat :=
  match l with
  | [] => None
  | n :: l' => if decide (n_key n = m) then Some i else position m (S i) l'
  end.

(** rank.rs:13-39 *)
Definition zrank_apply (now : N) (k m : bytes) (rv : bool) (d : dict) : dict * outcome (option nat) :=
  let '(d1, o) := dict_get now k d in
  match o with
  | Some v =>
      match v_data v with
      | DZSet h l =>
          match h !! m with
          | Some _ => (d1, OOk (position m 0 (if rv then rev l else l)))
          | None => (d1, OOk None)
          end
      | _ => (d1, OErr EWrongType)
      end
  | None => (d1, OOk None)
  end.
