(** The root of a [BTreeSet] that was emptied: the one thing the other files leave out of a sorted set.

    [BTreeMap::range] checks its bounds if the tree has a root. A new tree has none; inserting makes one; removing the
    last element keeps it (an empty leaf); [clone] of an empty tree has none (std::collections::btree_map). So a sorted
    set without members answers a reversed score range with nothing, or panics, depending on whether it ever had a
    member. ZREMRANGEBYSCORE and ZREMRANGEBYLEX search a clone, ZRANGEBYLEX returns early
    (remove_by_score_range.rs:34, remove_by_lex_range.rs:29-36, range_by_lex.rs:26-29): only
    range_by_score.rs:30 searches the tree itself. *)
From Verif Require Export Db.

(** The tree stored under a key. dict/src/data_type/sorted_set.rs:33-36. *)
Definition stored_tree (b : db) (k : bytes) : option (list node) :=
  match inner (b (get_slot k)) !! k with
  | Some v => match v_data v with DZSet _ l => Some l | _ => None end
  | None => None
  end.
(** Whether [dict.get] finds the key. dict/src/lib.rs:150-158. *)
Definition key_alive (now : N) (b : db) (k : bytes) : bool :=
  match inner (b (get_slot k)) !! k with Some v => alive now v | None => false end.

(** The database together with the keys whose tree is empty but has a root (trees with elements always have one).
    db/src/lib.rs:32-35. *)
Definition rdb := (db * gset bytes)%type.
(** Whether the tree under a key has a root. std::collections::btree_map, field [root]. *)
Definition has_root (f : rdb) (k : bytes) : bool :=
  match stored_tree (fst f) k with
  | Some [] => bool_decide (k ∈ snd f)
  | Some _ => true
  | None => false
  end.

(** Whether the write stored a new tree under its key: ZADD on a key that is missing or expired
    (dict/src/lib.rs:161-175 with sorted_set/add.rs:42-46), RESTORE (server/restore.rs:44-56; the payload's tree is built
    by inserting its elements into a new one). *)
Definition new_tree (now : N) (w : wreq) (o : outcome resp) (b : db) : bool :=
  match w with
  | WZAdd k _ _ _ _ => negb (key_alive now b k)
  | WRestore _ => match o with OOk _ => true | _ => false end
  | _ => false
  end.
(** The keys with an empty tree that has a root, after a write: [BTreeSet::remove] keeps the root. sorted_set/remove.rs:37,
    remove_by_rank_range.rs, remove_by_score_range.rs, remove_by_lex_range.rs. *)
Definition rooted_after (now : N) (w : wreq) (o : outcome resp) (f : rdb) (b' : db) : gset bytes :=
  let k := wkey w in
  match stored_tree b' k with
  | Some [] => if negb (new_tree now w o (fst f)) && has_root f k then {[k]} ∪ snd f else snd f ∖ {[k]}
  | _ => snd f ∖ {[k]}
  end.
(** The search of range_by_score.rs:30 in an empty tree with a root: only the check of the bounds. *)
Definition empty_search_panics (now : N) (r : rreq) (f : rdb) : bool :=
  match r with
  | RZRangeScore k rg _ _ =>
      key_alive now (fst f) k && has_root f k &&
      match stored_tree (fst f) k with Some [] => bt_range_invalid (fst (bigger_range rg)) (snd (bigger_range rg)) | _ => false end
  | _ => false
  end.

(** One command ([db_cmd]) with the root. db/src/lib.rs:100-297. *)
Definition rdb_cmd (ho : horder) (now : N) (c : cmd) (f : rdb) : rdb * outcome resp :=
  let '(b', o) := db_cmd ho now c (fst f) in
  match c with
  | CWrite w => ((b', rooted_after now w o f b'), o)
  | CRead r => ((b', snd f), if empty_search_panics now r f then OPanic else o)
  end.
(** A history. db/src/lib.rs:100-297. *)
Fixpoint rdb_run (ho : horder) (h : list (N * cmd)) (f : rdb) : rdb * list (outcome resp) :=
  match h with
  | [] => (f, [])
  | (now, c) :: h' =>
      let '(f1, r) := rdb_cmd ho now c f in
      let '(f2, rs) := rdb_run ho h' f1 in (f2, r :: rs)
  end.
(** A new database. db/src/lib.rs:52-55. *)
Definition rdb_empty : rdb := (db_empty, ∅).
