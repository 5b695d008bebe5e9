(** bincode 1.3.3 with its default configuration for the free functions [serialize],
    [serialize_into], [deserialize], [deserialize_from]: little endian, fixed-width integers
    (lengths as u64, enum variants as u32), no limit, trailing bytes allowed.
    Only what rudis serializes is modelled. *)
From Verif Require Export CmdZset.

(** ** Decoder results.  [DPanic]: a panic inside a [Deserialize] impl (BTreeSet insertion of NaN).
    [Err] and [Ok] of [bincode::deserialize] (dict/src/cmd/server/restore.rs). *)
Inductive dres (A : Type) := DOk (a : A) (rest : bytes) | DErr | DPanic.
Arguments DOk {A} a rest. Arguments DErr {A}. Arguments DPanic {A}.

(** A decoder (serde [Deserialize]). *)
Definition dec (A : Type) := bytes -> dres A.
(** [Ok(a)] in a derived [Deserialize]. *)
Definition dret {A} (a : A) : dec A := fun s => DOk a s.
(** [Err(_)] in a derived [Deserialize]. *)
Definition dfail {A} : dec A := fun _ => DErr.
(** [?] in a derived [Deserialize]. *)
Definition dbind {A B} (f : dec A) (g : A -> dec B) : dec B :=
  fun s => match f s with DOk a s' => g a s' | DErr => DErr | DPanic => DPanic end.
Notation "x <~ f ;; g" := (dbind f (fun x => g)) (at level 100, f at next level, right associativity).

(** ** Fixed-width little-endian integers *)
(** bincode 1.3 fixint. *)
Fixpoint put_le (n : nat) (x : N) : bytes :=
  match n with
  | O => []
  | S n' => byte_of_N x :: put_le n' (x / 256)
  end.
(** bincode 1.3 fixint; [None]: end of input. *)
Fixpoint get_le (n : nat) : dec N :=
  match n with
  | O => dret 0%N
  | S n' => fun s =>
      match s with
      | [] => DErr
      | b :: s' =>
          match get_le n' s' with
          | DOk x r => DOk (Byte.to_N b + 256 * x)%N r
          | DErr => DErr
          | DPanic => DPanic
          end
      end
  end.

(** bincode u8 *)
Definition put_u8 (x : N) : bytes := put_le 1 x.
(** bincode u16 *)
Definition put_u16 (x : N) : bytes := put_le 2 x.
(** bincode u32, also the variant index of an enum *)
Definition put_u32 (x : N) : bytes := put_le 4 x.
(** bincode u64 and usize (dict/src/lib.rs:42, 53, 57) *)
Definition put_u64 (x : N) : bytes := put_le 8 x.
(** bincode u8 *)
Definition get_u8 : dec N := get_le 1.
(** bincode u16 *)
Definition get_u16 : dec N := get_le 2.
(** bincode u32 *)
Definition get_u32 : dec N := get_le 4.
(** bincode u64 *)
Definition get_u64 : dec N := get_le 8.

(** bincode i64 (data_type/mod.rs:22) *)
Definition put_i64 (z : Z) : bytes := put_u64 (i64_as_u64 z).
(** bincode i64 *)
Definition get_i64 : dec Z := x <~ get_u64;; dret (u64_as_i64 x).

(** bool: one byte, anything but 0 and 1 is an error. bincode. *)
Definition put_bool (b : bool) : bytes := put_u8 (if b then 1 else 0).
(** bincode bool *)
Definition get_bool : dec bool :=
  x <~ get_u8;; if (x =? 0)%N then dret false else if (x =? 1)%N then dret true else dfail.

(** Option: tag byte 0 / 1. bincode. *)
Definition put_option {A} (p : A -> bytes) (o : option A) : bytes :=
  match o with None => put_u8 0 | Some a => put_u8 1 ++ p a end.
(** bincode Option *)
Definition get_option {A} (g : dec A) : dec (option A) :=
  x <~ get_u8;;
  if (x =? 0)%N then dret None else if (x =? 1)%N then (a <~ g;; dret (Some a)) else dfail.

(** f64: the 64 bits.  [SpecFloat] has a single NaN, so NaN payloads are not modelled.
    bincode f64 (float.rs:10-11). *)
Definition f64_bits (f : f64) : N :=
  match f with
  | S754_zero s => if s then 2 ^ 63 else 0
  | S754_infinity s => (if s then 2 ^ 63 else 0) + 2047 * 2 ^ 52
  | S754_nan => 2047 * 2 ^ 52 + 2 ^ 51
  | S754_finite s m e =>
      (if s then 2 ^ 63 else 0) +
      (if (2 ^ 52 <=? N.pos m) then Z.to_N (e + 1075) * 2 ^ 52 + (N.pos m - 2 ^ 52) else N.pos m)
  end%N.
(** bincode f64 (float.rs:10-11) *)
Definition f64_of_bits (x : N) : f64 :=
  let s := (2 ^ 63 <=? x)%N in
  let ex := ((x / 2 ^ 52) mod 2048)%N in
  let m := (x mod 2 ^ 52)%N in
  if (ex =? 0)%N then
    match m with N0 => S754_zero s | Npos p => S754_finite s p (-1074) end
  else if (ex =? 2047)%N then
    match m with N0 => S754_infinity s | Npos _ => S754_nan end
  else match (m + 2 ^ 52)%N with
       | Npos p => S754_finite s p (Z.of_N ex - 1075)
       | N0 => S754_nan
       end.
(** bincode f64 (float.rs:10-11) *)
Definition put_f64 (f : f64) : bytes := put_u64 (f64_bits f).
(** bincode f64 (float.rs:10-11) *)
Definition get_f64 : dec f64 := x <~ get_u64;; dret (f64_of_bits x).

(** ** Sequences: u64 length, then the elements.  [Vec<u8>], [Box<[u8]>] and [Arc<[u8]>] are
    sequences of bytes. bincode. *)
Definition put_seq {A} (p : A -> bytes) (l : list A) : bytes :=
  put_u64 (N.of_nat (length l)) ++ concat (map p l).

(** Every element read here occupies at least one byte, so the input length bounds the number of
    iterations; running out of fuel means the input is exhausted, an error in bincode as well. *)
Fixpoint get_elems {A} (fuel : nat) (g : dec A) (n : N) : dec (list A) :=
  fun s =>
    if (n =? 0)%N then DOk [] s
    else match fuel with
         | O => DErr
         | S fuel' =>
             match g s with
             | DOk a s' =>
                 match get_elems fuel' g (n - 1) s' with
                 | DOk l r => DOk (a :: l) r
                 | DErr => DErr
                 | DPanic => DPanic
                 end
             | DErr => DErr
             | DPanic => DPanic
             end
         end.
(** bincode sequences: the length, then as many elements. *)
Definition get_seq {A} (g : dec A) : dec (list A) :=
  fun s => match get_u64 s with
           | DOk n s' => get_elems (length s') g n s'
           | DErr => DErr
           | DPanic => DPanic
           end.

(** bincode u8 *)
Definition put_byte (b : byte) : bytes := [b].
(** bincode u8 *)
Definition get_byte : dec byte :=
  fun s => match s with [] => DErr | b :: s' => DOk b s' end.
(** bincode [Vec<u8>], [Box<\[u8\]>], [Key] *)
Definition put_bytes (b : bytes) : bytes := put_seq put_byte b.
(** bincode [Vec<u8>] *)
Definition get_bytes : dec bytes := get_seq get_byte.

(** bincode tuples, map entries *)
Definition put_pair {A B} (p : A -> bytes) (q : B -> bytes) (x : A * B) : bytes :=
  p (fst x) ++ q (snd x).
(** bincode tuples, map entries *)
Definition get_pair {A B} (f : dec A) (g : dec B) : dec (A * B) :=
  a <~ f;; b <~ g;; dret (a, b).

(** ** Hash-table iteration order is an oracle: some permutation of the entries.
    std HashMap with ahash (dict/src/lib.rs:43, data_type/kvp.rs, set.rs). *)
Definition horder := forall A : Type, gmap bytes A -> list (bytes * A).
(** See [horder]. *)
Definition horder_ok (ho : horder) : Prop :=
  forall (A : Type) (m : gmap bytes A), ho A m ≡ₚ map_to_list m.
(** One admissible order. *)
Definition horder_default : horder := fun A m => map_to_list m.
(** The order of a HashSet (data_type/set.rs). *)
Definition set_order (ho : horder) (s : gset bytes) : list bytes :=
  map fst (ho unit (gset_to_gmap tt s)).

(** Deserializing a HashMap / HashSet inserts the entries one after the other. std HashMap. *)
Definition map_of_entries {A} (l : list (bytes * A)) : gmap bytes A :=
  fold_left (fun m e => <[fst e := snd e]> m) l ∅.
(** std HashSet (data_type/set.rs). *)
Definition set_of_elems (l : list bytes) : gset bytes :=
  fold_left (fun s m => {[ m ]} ∪ s) l ∅.
(** Deserializing a BTreeSet inserts the elements one after the other; [None]: NaN panic.
    std BTreeSet (sorted_set.rs:35). *)
Definition btree_of_elems (l : list node) : option (list node) :=
  fold_left (fun o n => match o with Some t => bt_insert n t | None => None end) l (Some []).

(** ** Values.  [DataType]: data_type/mod.rs:17-28 (variant numbers in declaration order).
    [put_scalar] and [get_scalar] are for the values of commands, which are never collections (frame_parse.rs:4-11);
    elements of stored collections are written by [put_elem] and read by [get_elem] below. *)
Definition put_scalar (x : scalar) : bytes :=
  match x with
  | SNull => put_u32 0
  | SString b => put_u32 1 ++ put_bytes b
  | SBytes b => put_u32 2 ++ put_bytes b
  | SInteger z => put_u32 3 ++ put_i64 z
  | SFloat f => put_u32 4 ++ put_f64 f
  | SKvp _ => put_u32 5
  | SDeque _ => put_u32 6
  | SSet _ => put_u32 7
  | SZSet _ _ => put_u32 8
  end.

(** Payload of the scalar variants; the other tags are collections. data_type/mod.rs:17-23. *)
Definition get_scalar_tag (t : N) : option (dec scalar) :=
  match t with
  | 0 => Some (dret SNull)
  | 1 => Some (b <~ get_bytes;; dret (SString b))
  | 2 => Some (b <~ get_bytes;; dret (SBytes b))
  | 3 => Some (z <~ get_i64;; dret (SInteger z))
  | 4 => Some (f <~ get_f64;; dret (SFloat f))
  | _ => None
  end%N.
(** Derived [Deserialize] of DataType for the values in a command (data_type/mod.rs:17-28); a collection, which
    nobody sends, is refused. *)
Definition get_scalar : dec scalar :=
  t <~ get_u32;; match get_scalar_tag t with Some g => g | None => dfail end.

(** Node: struct { score, key } (sorted_set.rs:7-11) *)
Definition put_node (n : node) : bytes := put_f64 (n_score n) ++ put_bytes (n_key n).
(** Derived [Deserialize] of Node (sorted_set.rs:7-11) *)
Definition get_node : dec node := s <~ get_f64;; k <~ get_bytes;; dret (Node s k).

(** Derived [Deserialize] of BTreeSet<Node> (sorted_set.rs:32-36) *)
Definition get_btree : dec (list node) :=
  fun s => match get_seq get_node s with
           | DOk l r => match btree_of_elems l with Some t => DOk t r | None => DPanic end
           | DErr => DErr
           | DPanic => DPanic
           end.

(** Derived [Serialize] of DataType for an element of a list or a hash (data_type/mod.rs:17-28, kvp.rs, deque.rs). *)
Fixpoint put_elem (ho : horder) (x : scalar) : bytes :=
  match x with
  | SKvp m =>
      put_u32 5 ++ put_seq (put_pair put_bytes id) (ho _ (list_to_map (map (fun e => (fst e, put_elem ho (snd e))) m)))
  | SDeque l => put_u32 6 ++ put_seq (put_elem ho) l
  | SSet s => put_u32 7 ++ put_seq put_bytes (set_order ho (list_to_set s))
  | SZSet h l =>
      put_u32 8 ++ put_seq (put_pair put_bytes put_node) (ho _ (list_to_map h)) ++ put_seq put_node l
  | _ => put_scalar x
  end.
(** Derived [Deserialize] of DataType for an element of a list or a hash (data_type/mod.rs:17-28, kvp.rs, deque.rs).
    [fuel] bounds the nesting; every level takes four bytes, so the length of the input is enough.  (The real
    recursion overflows the stack on deeply nested payloads.) *)
Fixpoint get_elem (fuel : nat) : dec scalar :=
  match fuel with
  | O => dfail
  | S fuel' =>
      t <~ get_u32;;
      match get_scalar_tag t with
      | Some g => g
      | None =>
          match t with
          | 5 => es <~ get_seq (get_pair get_bytes (get_elem fuel'));; dret (SKvp (map_to_list (map_of_entries es)))
          | 6 => l <~ get_seq (get_elem fuel');; dret (SDeque l)
          | 7 => l <~ get_seq get_bytes;; dret (SSet (elements (set_of_elems l)))
          | 8 => es <~ get_seq (get_pair get_bytes get_node);;
                 l <~ get_btree;; dret (SZSet (map_to_list (map_of_entries es)) l)
          | _ => dfail
          end%N
      end
  end.

(** Derived [Serialize] of DataType (data_type/mod.rs:17-28) *)
Definition put_data (ho : horder) (x : data) : bytes :=
  match x with
  | DScalar s => put_scalar s
  | DKvp m => put_u32 5 ++ put_seq (put_pair put_bytes (put_elem ho)) (ho _ m)
  | DDeque l => put_u32 6 ++ put_seq (put_elem ho) l
  | DSet s => put_u32 7 ++ put_seq put_bytes (set_order ho s)
  | DZSet h l =>
      put_u32 8 ++ put_seq (put_pair put_bytes put_node) (ho _ h) ++ put_seq put_node l
  end.

(** Derived [Deserialize] of DataType (data_type/mod.rs:17-28) *)
Definition get_data : dec data := fun s =>
 (t <~ get_u32;;
  match get_scalar_tag t with
  | Some g => s <~ g;; dret (DScalar s)
  | None =>
      match t with
      | 5 => es <~ get_seq (get_pair get_bytes (get_elem (length s)));; dret (DKvp (map_of_entries es))
      | 6 => l <~ get_seq (get_elem (length s));; dret (DDeque l)
      | 7 => l <~ get_seq get_bytes;; dret (DSet (set_of_elems l))
      | 8 => es <~ get_seq (get_pair get_bytes get_node);;
             l <~ get_btree;; dret (DZSet (map_of_entries es) l)
      | _ => dfail
      end%N
  end) s.

(** [Value] (component/dict/src/lib.rs:48-58) *)
Definition put_value (ho : horder) (v : value) : bytes :=
  put_data ho (v_data v) ++ put_u64 (v_exp v) ++ put_u64 (v_log v).
(** Derived [Deserialize] of Value (dict/src/lib.rs:48-58) *)
Definition get_value : dec value :=
  x <~ get_data;; e <~ get_u64;; l <~ get_u64;; dret (Value x e l).

(** [MemDict] (component/dict/src/lib.rs:40-46) *)
Definition put_dict (ho : horder) (d : dict) : bytes :=
  put_u64 (write_id d) ++ put_seq (put_pair put_bytes (put_value ho)) (ho _ (inner d)).
(** Derived [Deserialize] of MemDict (dict/src/lib.rs:40-46) *)
Definition get_dict : dec dict :=
  w <~ get_u64;; es <~ get_seq (get_pair get_bytes get_value);; dret (Dict w (map_of_entries es)).

(** [bincode::deserialize]: trailing bytes are ignored. *)
Definition deserialize {A} (g : dec A) (s : bytes) : outcome A :=
  match g s with DOk a _ => OOk a | DErr => OErr EBincode | DPanic => OPanic end.
