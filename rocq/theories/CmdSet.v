(** component/dict/src/cmd/set/*.rs *)
From Verif Require Export CmdKvp.

(** set/add.rs:31-49 *)
Definition set_add_apply (now : N) (k : bytes) (ms : list bytes) (d : dict) : dict * outcome lens :=
  let '(d1, v) := get_or_insert_with now k (fresh_value now (DSet ∅)) d in
  match v_data v with
  | DSet s =>
      let s' := fold_left (fun s m => {[ m ]} ∪ s) ms s in
      (dict_put k (with_data v (DSet s')) d1, OOk (Lens (size s) (size s')))
  | _ => (d1, OErr EWrongType)
  end.

(** set/remove.rs:31-51 *)
Definition set_remove_apply (now : N) (k : bytes) (ms : list bytes) (d : dict) : dict * outcome lens :=
  let '(d1, o) := dict_get now k d in
  match o with
  | Some v =>
      match v_data v with
      | DSet s =>
          let s' := fold_left (fun s m => s ∖ {[ m ]}) ms s in
          (dict_put k (with_data v (DSet s')) d1, OOk (Lens (size s) (size s')))
      | _ => (d1, OErr EWrongType)
      end
  | None => (d1, OOk (Lens 0 0))
  end.

(** set/exists.rs:11-24 *)
Definition set_exists_apply (now : N) (k : bytes) (fs : list bytes) (d : dict) : dict * outcome (list bool) :=
  let '(d1, o) := dict_get now k d in
  match o with
  | Some v =>
      match v_data v with
      | DSet s => (d1, OOk (map (fun f => bool_decide (f ∈ s)) fs))
      | _ => (d1, OErr EWrongType)
      end
  | None => (d1, OOk (repeat false (length fs)))
  end.

(** set/get_all.rs:12-21 *)
Definition set_get_all_apply (now : N) (k : bytes) (d : dict) : dict * outcome (gset bytes) :=
  let '(d1, o) := dict_get now k d in
  match o with
  | Some v =>
      match v_data v with
      | DSet s => (d1, OOk s)
      | _ => (d1, OErr EWrongType)
      end
  | None => (d1, OOk ∅)
  end.
