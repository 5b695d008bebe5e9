(** Values that Rust types can hold: integers fit their width, lengths fit a usize, floats are binary64.
    These are the conditions of the serialization theorems. *)
From Verif Require Export Bincode Forward.

Definition fits_u64 (n : N) : Prop := (n < 2 ^ 64)%N.
Definition fits_i64 (z : Z) : Prop := (- 2 ^ 63 <= z < 2 ^ 63)%Z.
Definition fits_len {A} (l : list A) : Prop := (N.of_nat (length l) < 2 ^ 64)%N.

(** A value in a command: not a collection. *)
Definition scalar_fits (x : scalar) : Prop :=
  match x with
  | SNull => True
  | SString b | SBytes b => fits_len b
  | SInteger z => fits_i64 z
  | SFloat f => f64_valid f = true
  | SKvp _ | SDeque _ | SSet _ | SZSet _ _ => False
  end.
Definition node_fits (n : node) : Prop := f64_valid (n_score n) = true /\ fits_len (n_key n).
Definition map_fits {A} (P : A -> Prop) (m : gmap bytes A) : Prop :=
  (N.of_nat (size m) < 2 ^ 64)%N /\ forall k x, m !! k = Some x -> fits_len k /\ P x.

(** The elements of a tree are strictly increasing; so a NaN can only be the single element. *)
Fixpoint tree_ordered (l : list node) : Prop :=
  match l with
  | [] => True
  | n :: l' => Forall (fun x => node_cmp n x = Some Lt) l' /\ tree_ordered l'
  end.

(** The entries of a table, in the order in which the model keeps a table that is an element. *)
Definition table {A} (m : list (bytes * A)) : Prop := map_to_list (list_to_map m : gmap bytes A) = m.
Definition names (s : list bytes) : Prop := elements (list_to_set s : gset bytes) = s.
(** An element of a list or a hash, collections included. *)
Fixpoint elem_fits (x : scalar) : Prop :=
  match x with
  | SKvp m => table m /\ fits_len m /\ (fix all l := match l with [] => True | e :: l' => (fits_len (fst e) /\ elem_fits (snd e)) /\ all l' end) m
  | SDeque l => fits_len l /\ (fix all l := match l with [] => True | e :: l' => elem_fits e /\ all l' end) l
  | SSet s => names s /\ fits_len s /\ Forall fits_len s
  | SZSet h l => table h /\ fits_len h /\ Forall (fun e => fits_len (fst e) /\ node_fits (snd e)) h /\
      fits_len l /\ Forall node_fits l /\ tree_ordered l
  | _ => scalar_fits x
  end.

Definition data_fits (x : data) : Prop :=
  match x with
  | DScalar s => scalar_fits s
  | DKvp m => map_fits elem_fits m
  | DDeque l => fits_len l /\ Forall elem_fits l
  | DSet s => (N.of_nat (size s) < 2 ^ 64)%N /\ forall m, m ∈ s -> fits_len m
  | DZSet h l => map_fits node_fits h /\ fits_len l /\ Forall node_fits l /\ tree_ordered l
  end.
Definition value_fits (v : value) : Prop := data_fits (v_data v) /\ fits_u64 (v_exp v) /\ fits_u64 (v_log v).
Definition dict_fits (d : dict) : Prop := fits_u64 (write_id d) /\ map_fits value_fits (inner d).

(** Requests whose components fit. *)
Definition bound_fits {A} (P : A -> Prop) (b : bound A) : Prop :=
  match b with Unbounded => True | Included a | Excluded a => P a end.
Definition list_fits {A} (P : A -> Prop) (l : list A) : Prop := fits_len l /\ Forall P l.
Definition ea_fits (e : expires_at) : Prop := match e with Specific ms => fits_u64 ms | Last => True end.
Definition wreq_fits (w : wreq) : Prop :=
  fits_len (wkey w) /\
  match w with
  | WDel _ => True
  | WExpire _ at_ _ _ => fits_u64 at_
  | WIncr _ n => fits_i64 n
  | WSet _ x ea _ => scalar_fits x /\ ea_fits ea
  | WKvpDel _ fs => list_fits fits_len fs
  | WKvpIncr _ f n => fits_len f /\ fits_i64 n
  | WKvpSet _ es _ => list_fits (fun e => fits_len (fst e) /\ scalar_fits (snd e)) es
  | WDequePop _ c _ => fits_u64 c
  | WDequePush _ es _ _ => list_fits scalar_fits es
  | WSetAdd _ ms | WSetRemove _ ms | WZRemove _ ms => list_fits fits_len ms
  | WZAdd _ ns _ _ _ => list_fits node_fits ns
  | WZRemRank _ a b _ => fits_i64 a /\ fits_i64 b
  | WZRemScore _ r _ => bound_fits (fun f => f64_valid f = true) (fst r) /\ bound_fits (fun f => f64_valid f = true) (snd r)
  | WZRemLex _ r _ => bound_fits fits_len (fst r) /\ bound_fits fits_len (snd r)
  | WRestore _ => True
  end.
(** What is sent: an id, a slot number and a command other than RESTORE (which is sent as [None]). *)
Definition sendable (m : fwd_msg) : Prop :=
  fits_u64 (fm_id m) /\ fits_u64 (fm_slot m) /\
  match fm_cmd m with
  | Some (WRestore _) => False
  | Some w => wreq_fits w
  | None => True
  end.
