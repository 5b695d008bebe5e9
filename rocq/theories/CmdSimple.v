(** component/dict/src/cmd/simple/*.rs *)
From Verif Require Export Dict.

(** del.rs:23-47.  [remove] ignores expiry. Payload: the raw old value. *)
Definition del_apply (k : bytes) (d : dict) : dict * option value * exp_status :=
  let '(d', o) := dict_remove k d in
  match o with
  | None => (d', None, None)
  | Some v =>
      (d', Some v,
       if (0 <? v_exp v)%N then Some (ExpUpdate k (v_exp v) 0) else None)
  end.

(** exists.rs:10-12 *)
Definition exists_apply (now : N) (k : bytes) (d : dict) : dict * bool := dict_exists now k d.

(** expire.rs:33-48: the decision table; [cur] is the current deadline (0 = none). *)
Definition expire_update (nx : nx_xx) (gl : gt_lt) (cur new : N) : bool :=
  match nx, gl with
  | NxXx_None, GtLt_None => true
  | NxXx_Nx, GtLt_None => (cur =? 0)%N
  | NxXx_Xx, GtLt_Gt | NxXx_None, GtLt_Gt => negb (cur =? 0)%N && (cur <? new)%N
  | NxXx_Xx, GtLt_Lt | NxXx_None, GtLt_Lt => (cur =? 0)%N || (new <? cur)%N
  | NxXx_Xx, GtLt_None => (0 <? cur)%N
  | _, _ => false
  end.

(** expire.rs:26-68 *)
Definition expire_apply (now : N) (k : bytes) (new : N) (nx : nx_xx) (gl : gt_lt) (d : dict)
  : dict * bool * exp_status :=
  let '(d1, o) := dict_get now k d in
  match o with
  | None => (d1, false, None)
  | Some v =>
      if expire_update nx gl (v_exp v) new then
        (dict_put k (Value (v_data v) new (v_log v)) d1, true,
         Some (ExpUpdate k (v_exp v) new))
      else (d1, false, None)
  end.

(** get.rs:10-15 *)
Definition get_apply (now : N) (k : bytes) (d : dict) : dict * data :=
  let '(d1, o) := dict_get now k d in
  (d1, match o with Some v => v_data v | None => DNull end).

(** get_last_visit_time.rs:10-15 (u64 multiplication) *)
Definition get_last_visit_time_apply (k : bytes) (d : dict) : option N :=
  match raw_get k d with
  | Some v => Some (wrap_u64 (get_last_visit_time (v_log v) * 10))
  | None => None
  end.

(** get_visit_times.rs:10-15 *)
Definition get_visit_times_apply (k : bytes) (d : dict) : option N :=
  match raw_get k d with
  | Some v => Some (get_visit_times (v_log v))
  | None => None
  end.

(** incr.rs:27-44.  [old + self.value] on i64: wraps in release (a debug build panics). *)
Definition incr_apply (now : N) (k : bytes) (n : Z) (d : dict) : dict * outcome Z :=
  let '(d1, o) := dict_get now k d in
  match o with
  | Some v =>
      match data_as_i64 (v_data v) with
      | OOk old =>
          let new := wrap_i64 (old + n) in
          (dict_put k (with_data v (DInteger new)) d1, OOk new)
      | OErr e => (d1, OErr e)
      | OPanic => (d1, OPanic)
      end
  | None =>
      (fst (dict_insert k (Value (DInteger n) 0 (new_visit_log now)) d1), OOk n)
  end.

(** ttl.rs:11-18 *)
Inductive ttl_resp := TtlNone | TtlNotExist | Ttl (ms : N).

(** ttl.rs:23-37 *)
Definition ttl_apply (now : N) (k : bytes) (d : dict) : ttl_resp :=
  match raw_get k d with
  | Some v =>
      if alive now v then
        if (v_exp v =? 0)%N then TtlNone else Ttl (v_exp v - now)
      else TtlNotExist
  | None => TtlNotExist
  end.

(** set.rs:27-128 *)
Definition set_apply (now : N) (k : bytes) (x : scalar) (ea : expires_at) (nx : nx_xx) (d : dict)
  : dict * data * exp_status :=
  let payload (o : option value) := match o with Some v => v_data v | None => DNull end in
  match nx, ea with
  | NxXx_None, Specific e =>
      (* set.rs:28-61, fast path: no lookup, the raw old value is returned *)
      let '(d', old) := dict_insert k (Value (DScalar x) e (new_visit_log now)) d in
      (d', payload old, if (0 <? e)%N then Some (ExpUpdate k 0 e) else None)
  | _, _ =>
      let '(d1, o) := dict_get now k d in
      match o with
      | Some old =>
          (* set.rs:64-92 *)
          match nx with
          | NxXx_Nx => (d1, v_data old, None)
          | _ =>
              let e := match ea with Specific i => i | Last => v_exp old end in
              let '(d2, old') := dict_insert k (Value (DScalar x) e (new_visit_log now)) d1 in
              (d2, payload old', Some (ExpUpdate k (v_exp old) e))
          end
      | None =>
          (* set.rs:93-127 *)
          match nx with
          | NxXx_Xx => (d1, DNull, None)
          | _ =>
              let e := match ea with Specific i => i | Last => 0%N end in
              let '(d2, _) := dict_insert k (Value (DScalar x) e (new_visit_log now)) d1 in
              (d2, DNull, if (e =? 0)%N then None else Some (ExpUpdate k 0 e))
          end
      end
  end.
