(** Data types, option enums, outcomes. *)
From Verif Require Export F64.

(** ** Option enums *)

(** component/common/src/options/nx_xx.rs *)
Inductive nx_xx := NxXx_None | NxXx_Nx | NxXx_Xx.
(** component/common/src/options/gt_lt.rs *)
Inductive gt_lt := GtLt_None | GtLt_Gt | GtLt_Lt.
(** component/common/src/options/set_cmd_expires.rs (ExpiresAt): [Specific 0] means no expiry. *)
Inductive expires_at := Specific (ms : N) | Last.
(** component/common/src/options/limit.rs; [None] is [Limit::None]. *)
Definition limit := option (Z * Z).
(** std::ops::Bound *)
Inductive bound (A : Type) := Unbounded | Included (a : A) | Excluded (a : A).
Arguments Unbounded {A}. Arguments Included {A} a. Arguments Excluded {A} a.

(** component/common/src/lib.rs:22-35 (BoundExt::map). *)
Definition bound_map {A B} (f : A -> B) (b : bound A) : bound B :=
  match b with Unbounded => Unbounded | Included a => Included (f a) | Excluded a => Excluded (f a) end.

Global Instance nx_xx_eq_dec : EqDecision nx_xx. Proof. solve_decision. Defined.
Global Instance gt_lt_eq_dec : EqDecision gt_lt. Proof. solve_decision. Defined.
Global Instance expires_at_eq_dec : EqDecision expires_at. Proof. solve_decision. Defined.
Global Instance bound_eq_dec {A} `{EqDecision A} : EqDecision (bound A). Proof. solve_decision. Defined.

(** ** Sorted-set nodes: component/dict/src/data_type/sorted_set.rs:7-30 *)
Record node := Node { n_score : f64; n_key : bytes }.
Global Instance node_eq_dec : EqDecision node. Proof. solve_decision. Defined.

(** ** Values stored under a key: component/dict/src/data_type/mod.rs:18-28.

    [scalar] is the type of what a request stores and of the elements of lists and hashes.  Every command that
    stores an element builds it with [next_data_type] (component/server/src/frame_parse.rs), which only makes
    Integer, Bytes and String.  Collections as elements ([SKvp] to [SZSet]) enter only through a hand-crafted RESTORE
    payload; no command looks inside them.  Their hash tables are lists in one fixed order (that of
    [map_to_list] and [elements]), so that equal tables are equal lists.  At the top of a value a
    collection is a [data] below, never a [DScalar]. *)
Inductive scalar :=
  | SNull
  | SString (b : bytes)
  | SBytes (b : bytes)
  | SInteger (z : Z)
  | SFloat (f : f64)
  | SKvp (m : list (bytes * scalar))
  | SDeque (l : list scalar)
  | SSet (s : list bytes)
  | SZSet (hash : list (bytes * node)) (value : list node).

(** [SortedSet] (sorted_set.rs:33-36): [hash] maps a member to its node, [value] is the BTreeSet,
    modelled by the list of its elements in iteration order.
    [Kvp] (kvp.rs), [Deque] (deque.rs), [Set] (set.rs). *)
Inductive data :=
  | DScalar (s : scalar)
  | DKvp (m : gmap bytes scalar)
  | DDeque (l : list scalar)
  | DSet (s : gset bytes)
  | DZSet (hash : gmap bytes node) (value : list node).

(** data_type/mod.rs:19 *)
Notation DNull := (DScalar SNull).
(** data_type/mod.rs:20 *)
Notation DString b := (DScalar (SString b)).
(** data_type/mod.rs:21 *)
Notation DBytes b := (DScalar (SBytes b)).
(** data_type/mod.rs:22 *)
Notation DInteger z := (DScalar (SInteger z)).
(** data_type/mod.rs:23 *)
Notation DFloat f := (DScalar (SFloat f)).

Global Instance scalar_eq_dec : EqDecision scalar.
Proof.
  unfold EqDecision, Decision. fix go 1. intros x y.
  destruct x as [|b|b|z|f|m|l|s|h v], y as [|b'|b'|z'|f'|m'|l'|s'|h' v']; try (right; discriminate).
  - by left.
  - destruct (decide (b = b')) as [E|N]; [left; congruence|right; congruence].
  - destruct (decide (b = b')) as [E|N]; [left; congruence|right; congruence].
  - destruct (decide (z = z')) as [E|N]; [left; congruence|right; congruence].
  - destruct (decide (f = f')) as [E|N]; [left; congruence|right; congruence].
  - assert (E : {m = m'} + {m <> m'}).
    { refine ((fix goL (m m' : list (bytes * scalar)) {struct m} : {m = m'} + {m <> m'} :=
         match m, m' with
         | [], [] => left eq_refl
         | (k, x) :: m, (k', x') :: m' =>
             match decide (k = k'), go x x', goL m m' with
             | left _, left _, left _ => left _
             | _, _, _ => right _
             end
         | _, _ => right _
         end) m m'); congruence. }
    destruct E as [E|N]; [left; congruence|right; congruence].
  - assert (E : {l = l'} + {l <> l'}).
    { refine ((fix goL (m m' : list scalar) {struct m} : {m = m'} + {m <> m'} :=
         match m, m' with
         | [], [] => left eq_refl
         | x :: m, x' :: m' =>
             match go x x', goL m m' with
             | left _, left _ => left _
             | _, _ => right _
             end
         | _, _ => right _
         end) l l'); congruence. }
    destruct E as [E|N]; [left; congruence|right; congruence].
  - destruct (decide (s = s')) as [E|N]; [left; congruence|right; congruence].
  - destruct (decide (h = h')) as [E'|N]; [|right; congruence].
    destruct (decide (v = v')) as [E|N]; [left; congruence|right; congruence].
Defined.
Global Instance data_eq_dec : EqDecision data. Proof. solve_decision. Defined.

(** component/dict/src/lib.rs:48-58.  [v_exp] = 0 means no expiry; otherwise a unix time in ms. *)
Record value := Value { v_data : data; v_exp : N; v_log : N }.
Global Instance value_eq_dec : EqDecision value. Proof. solve_decision. Defined.

(** component/dict/src/lib.rs:40-46 (MemDict). *)
Record dict := Dict { write_id : N; inner : gmap bytes value }.

(** [MemDict::default()]: dict/src/lib.rs:40-46 *)
Definition dict_empty : dict := Dict 0 ∅.

(** ** Errors: the messages of [common::Error] values built in component/dict. *)
Inductive err :=
  | EWrongType   (** "WRONGTYPE Operation against a key holding the wrong kind of value" *)
  | ENotInt      (** "value is not an integer or out of range", data_type/mod.rs:61-64 *)
  | EBusyKey     (** "BUSYKEY Target key name is busy", cmd/server/restore.rs:34 *)
  | EBincode.    (** error of bincode::deserialize, cmd/server/restore.rs:39 *)

Global Instance err_eq_dec : EqDecision err. Proof. solve_decision. Defined.

(** Result of an operation: Ok, Err, or a Rust panic that unwinds out of the command.
    common/src/lib.rs:6 ([Result]). *)
Inductive outcome (A : Type) := OOk (a : A) | OErr (e : err) | OPanic.
Arguments OOk {A} a. Arguments OErr {A} e. Arguments OPanic {A}.

(** ** Expiry notifications: component/dict/src/cmd/mod.rs:22-36 (ExpiresStatus; [None] = no update). *)
Record exp_update := ExpUpdate { eu_key : bytes; eu_before : N; eu_new : N }.
(** dict/src/cmd/mod.rs:24-28 *)
Definition exp_status := option exp_update.
Global Instance exp_update_eq_dec : EqDecision exp_update. Proof. solve_decision. Defined.
