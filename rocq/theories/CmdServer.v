(** component/dict/src/cmd/server/*.rs *)
From Verif Require Export Bincode.

(** dump.rs:10-17: the whole [Value] (data, deadline, access log) is serialized. *)
Definition dump_apply (ho : horder) (now : N) (k : bytes) (d : dict) : dict * option bytes :=
  let '(d1, o) := dict_get now k d in
  (d1, match o with Some v => Some (put_value ho v) | None => None end).

(** restore.rs:11-18 *)
Record restore_req := RestoreReq {
  r_key : bytes; r_value : bytes; r_exp : N; r_replace : bool; r_visit : N; r_freq : N }.

(** restore.rs:28-57 *)
Definition restore_apply (now : N) (r : restore_req) (d : dict) : dict * outcome unit * exp_status :=
  let '(d1, o) := dict_get now (r_key r) d in
  match o, r_replace r with
  | Some _, false => (d1, OErr EBusyKey, None)
  | _, _ =>
      let before := match o with Some v => v_exp v | None => 0%N end in
      match deserialize get_data (r_value r) with
      | OOk x =>
          let log := create_visit_log (r_visit r / 10) (get_min now) (r_freq r) in
          (fst (dict_insert (r_key r) (Value x (r_exp r) log) d1), OOk tt,
           Some (ExpUpdate (r_key r) before (r_exp r)))
      | OErr e => (d1, OErr e, None)
      | OPanic => (d1, OPanic, None)
      end
  end.
