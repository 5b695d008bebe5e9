(** [MemDict] and the [Dict] trait, component/dict/src/lib.rs. *)
From Verif Require Export Types.

(** ** Access log (bit fields of [Value::visit_log]) *)

(** lib.rs:61 *)
Definition max_visit_times : N := 65535.
(** lib.rs:64-66: [(now / 60_000) & 0xffff] *)
Definition get_min (now : N) : N := N.land (now / 60000) 65535.
(** lib.rs:69-71 *)
Definition get_last_desc_time (log : N) : N := N.land (N.shiftr log 16) 65535.
(** lib.rs:74-76 *)
Definition get_visit_times (log : N) : N := N.land log max_visit_times.
(** lib.rs:80-82 *)
Definition get_last_visit_time (log : N) : N := N.shiftr log 32.
(** lib.rs:86-92: shifts drop high bits, additions wrap (release). *)
Definition create_visit_log (last_visit last_desc times : N) : N :=
  wrap_u64 (wrap_u64 (N.shiftl last_visit 32) + wrap_u64 (N.shiftl last_desc 16) + times).
(** lib.rs:96-103 *)
Definition new_visit_log (now : N) : N := create_visit_log (now / 10000) (get_min now) 5.
(** lib.rs:106-125.  [diff] is a u64 subtraction (wraps in release; a debug build panics). *)
Definition update_visit_log (now log : N) : N :=
  let last_visit := (now / 10000)%N in
  let old_desc := get_last_desc_time log in
  let last_desc := get_min now in
  let diff := sub_u64 last_desc old_desc in
  let vt := get_visit_times log in
  let vt := if (vt <? diff)%N then 0%N else (vt - diff)%N in
  let vt := if (vt <? max_visit_times)%N then (vt + 1)%N else vt in
  create_visit_log last_visit last_desc vt.

(** ** Dictionary operations *)

(** lib.rs:129-132 *)
Definition next_id (d : dict) : N * dict :=
  let i := wrap_u64 (write_id d + 1) in (i, Dict i (inner d)).
(** lib.rs:140-142 *)
Definition set_write_id (i : N) (d : dict) : dict := Dict i (inner d).

(** lib.rs:153: the filter of [get]. *)
Definition alive (now : N) (v : value) : bool := (v_exp v =? 0)%N || (now <? v_exp v)%N.

(** lib.rs:183-185 (insert; the old raw value is returned) *)
Definition dict_insert (k : bytes) (v : value) (d : dict) : dict * option value :=
  (Dict (write_id d) (<[k := v]> (inner d)), inner d !! k).

(** Writing through the [&mut Value] handed out by [get] / [get_or_insert_with]. dict/src/lib.rs:150-175. *)
Definition dict_put (k : bytes) (v : value) (d : dict) : dict :=
  Dict (write_id d) (<[k := v]> (inner d)).

(** lib.rs:178-180 *)
Definition dict_remove (k : bytes) (d : dict) : dict * option value :=
  (Dict (write_id d) (delete k (inner d)), inner d !! k).

(** lib.rs:188-195 *)
Definition raw_get (k : bytes) (d : dict) : option value := inner d !! k.

(** lib.rs:198 *)
Definition dict_len (d : dict) : nat := size (inner d).

(** [update_visit_log] on the stored value (dict/src/lib.rs:154-157, 169). *)
Definition touch (now : N) (v : value) : value :=
  Value (v_data v) (v_exp v) (update_visit_log now (v_log v)).

(** lib.rs:150-158.  The code samples the clock once for the filter and once in
    [update_visit_log]; the model uses one sample for both. *)
Definition dict_get (now : N) (k : bytes) (d : dict) : dict * option value :=
  match inner d !! k with
  | Some v =>
      if alive now v then
        let v' := touch now v in (dict_put k v' d, Some v')
      else (d, None)
  | None => (d, None)
  end.

(** lib.rs:145-147 *)
Definition dict_exists (now : N) (k : bytes) (d : dict) : dict * bool :=
  let '(d', o) := dict_get now k d in
  (d', match o with Some _ => true | None => false end).

(** lib.rs:161-175.  [f] is the value built by the closure. *)
Definition get_or_insert_with (now : N) (k : bytes) (f : value) (d : dict) : dict * value :=
  match inner d !! k with
  | Some v =>
      if (0 <? v_exp v)%N && (v_exp v <=? now)%N then (dict_put k f d, f)
      else let v' := touch now v in (dict_put k v' d, v')
  | None => (dict_put k f d, f)
  end.

(** The closures passed to [get_or_insert_with] all build an empty collection without expiry.
    For instance sorted_set/add.rs:43-47. *)
Definition fresh_value (now : N) (x : data) : value := Value x 0 (new_visit_log now).

(** Replace the data of a value, keeping expiry and log (assignment through [&mut v.data]).
    For instance simple/incr.rs. *)
Definition with_data (v : value) (x : data) : value := Value x (v_exp v) (v_log v).

(** component/dict/src/data_type/mod.rs:55-74: [TryFrom<&DataType> for i64]. *)
Definition scalar_as_i64 (s : scalar) : outcome Z :=
  match s with
  | SString b | SBytes b =>
      match atoi_i64 b with Some z => OOk z | None => OErr ENotInt end
  | SInteger z => OOk z
  | _ => OErr EWrongType
  end.
(** [TryFrom<&DataType> for i64] (data_type/mod.rs:55-74) *)
Definition data_as_i64 (x : data) : outcome Z :=
  match x with
  | DScalar s => scalar_as_i64 s
  | _ => OErr EWrongType
  end.
