(** component/dict/src/cmd/kvp/*.rs (hashes) *)
From Verif Require Export Dict.

(** Resp { old_len, new_len } of kvp/set.rs:20-26, kvp/del.rs:16-22, set/*.rs, deque/push.rs:19-25. *)
Record lens := Lens { old_len : nat; new_len : nat }.

(** One round of the loops at kvp/set.rs:44-60. *)
Definition kvp_set_entry (nx : nx_xx) (m : gmap bytes scalar) (e : bytes * scalar) : gmap bytes scalar :=
  let '(f, x) := e in
  match nx with
  | NxXx_Nx => match m !! f with Some _ => m | None => <[f := x]> m end
  | NxXx_Xx => match m !! f with Some _ => <[f := x]> m | None => m end
  | NxXx_None => <[f := x]> m
  end.

(** kvp/set.rs:35-69 *)
Definition kvp_set_apply (now : N) (k : bytes) (es : list (bytes * scalar)) (nx : nx_xx) (d : dict)
  : dict * outcome lens :=
  let '(d1, v) := get_or_insert_with now k (fresh_value now (DKvp ∅)) d in
  match v_data v with
  | DKvp m =>
      let m' := fold_left (kvp_set_entry nx) es m in
      (dict_put k (with_data v (DKvp m')) d1, OOk (Lens (size m) (size m')))
  | _ => (d1, OErr EWrongType)
  end.

(** kvp/del.rs:32-51 *)
Definition kvp_del_apply (now : N) (k : bytes) (fs : list bytes) (d : dict) : dict * outcome lens :=
  let '(d1, o) := dict_get now k d in
  match o with
  | Some v =>
      match v_data v with
      | DKvp m =>
          let m' := fold_left (fun m f => delete f m) fs m in
          (dict_put k (with_data v (DKvp m')) d1, OOk (Lens (size m) (size m')))
      | _ => (d1, OErr EWrongType)
      end
  | None => (d1, OOk (Lens 0 0))
  end.

(** kvp/exists.rs:11-20 *)
Definition kvp_exists_apply (now : N) (k f : bytes) (d : dict) : dict * outcome bool :=
  let '(d1, o) := dict_get now k d in
  match o with
  | Some v =>
      match v_data v with
      | DKvp m => (d1, OOk (match m !! f with Some _ => true | None => false end))
      | _ => (d1, OErr EWrongType)
      end
  | None => (d1, OOk false)
  end.

(** kvp/get.rs:11-24 *)
Definition kvp_get_apply (now : N) (k : bytes) (fs : list bytes) (d : dict)
  : dict * outcome (list scalar) :=
  let '(d1, o) := dict_get now k d in
  match o with
  | Some v =>
      match v_data v with
      | DKvp m => (d1, OOk (map (fun f => default SNull (m !! f)) fs))
      | _ => (d1, OErr EWrongType)
      end
  | None => (d1, OOk (repeat SNull (length fs)))
  end.

(** kvp/get_all.rs:12-24 *)
Definition kvp_get_all_apply (now : N) (k : bytes) (d : dict) : dict * outcome (gmap bytes scalar) :=
  let '(d1, o) := dict_get now k d in
  match o with
  | Some v =>
      match v_data v with
      | DKvp m => (d1, OOk m)
      | _ => (d1, OErr EWrongType)
      end
  | None => (d1, OOk ∅)
  end.

(** kvp/incr.rs:28-48.  [old + self.value] wraps in release. *)
Definition kvp_incr_apply (now : N) (k f : bytes) (n : Z) (d : dict) : dict * outcome Z :=
  let '(d1, v) := get_or_insert_with now k (fresh_value now (DKvp ∅)) d in
  match v_data v with
  | DKvp m =>
      match m !! f with
      | Some s =>
          match scalar_as_i64 s with
          | OOk old =>
              let new := wrap_i64 (old + n) in
              (dict_put k (with_data v (DKvp (<[f := SInteger new]> m))) d1, OOk new)
          | OErr e => (d1, OErr e)
          | OPanic => (d1, OPanic)
          end
      | None => (dict_put k (with_data v (DKvp (<[f := SInteger n]> m))) d1, OOk n)
      end
  | _ => (d1, OErr EWrongType)
  end.
