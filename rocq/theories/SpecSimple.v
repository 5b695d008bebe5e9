(** Specification of the string and key commands, in terms of what is visible under the key. *)
From Verif Require Export Spec.

(** What a key shows at an instant: nothing, or data with a deadline (0 = none). *)
Notation seen := (option (data * N)) (only parsing).

(** ** SET (redis.io/commands/set) *)
Definition set_stores (nx : nx_xx) (cur : seen) : bool :=
  match nx, cur with
  | NxXx_Nx, Some _ => false
  | NxXx_Xx, None => false
  | _, _ => true
  end.
Definition set_deadline (ea : expires_at) (cur : seen) : N :=
  match ea, cur with
  | Specific e, _ => e
  | Last, Some (_, e) => e
  | Last, None => 0%N
  end.
Definition seen_data (cur : seen) : data :=
  match cur with Some (x, _) => x | None => DNull end.

(** ** EXPIRE (redis.io/commands/expire): a key without deadline counts as living forever. *)
Definition forever_or (e : N) : option N := if (e =? 0)%N then None else Some e.
Definition expire_nx_xx (nx : nx_xx) (cur : option N) : bool :=
  match nx, cur with
  | NxXx_None, _ => true
  | NxXx_Nx, None => true
  | NxXx_Nx, Some _ => false
  | NxXx_Xx, None => false
  | NxXx_Xx, Some _ => true
  end.
Definition expire_gt_lt (gl : gt_lt) (cur : option N) (new : N) : bool :=
  match gl, cur with
  | GtLt_None, _ => true
  | GtLt_Gt, None => false
  | GtLt_Gt, Some c => (c <? new)%N
  | GtLt_Lt, None => true
  | GtLt_Lt, Some c => (new <? c)%N
  end.
Definition expire_allowed (nx : nx_xx) (gl : gt_lt) (cur : option N) (new : N) : bool :=
  expire_nx_xx nx cur && expire_gt_lt gl cur new.

(** ** INCR: stored values that stand for the 64-bit integer [z]. *)
Definition stands_for (x : data) (z : Z) : Prop :=
  (i64_min <= z <= i64_max)%Z /\
  (x = DInteger z \/ x = DBytes (show_Z z) \/ x = DString (show_Z z)).

(** Text that does not even begin like a number: no sign and no digit at the front. *)
Definition no_number_prefix (t : bytes) : Prop :=
  match t with
  | [] => True
  | b :: _ => b <> x2d /\ b <> x2b /\ ~ (48 <= Byte.to_N b <= 57)%N
  end.

(** ** Expiry notifications: after a write the expiry task must be able to keep its queue in step:
    without a notification the deadline of the key is unchanged or gone; with one it is the announced
    deadline, of that key. *)
Definition deadline (d : dict) (k : bytes) : N :=
  match contents d k with Some (_, e) => e | None => 0%N end.
Definition announces (k : bytes) (d d' : dict) (u : exp_status) : Prop :=
  match u with
  | None => deadline d' k = deadline d k \/ deadline d' k = 0%N
  | Some u => eu_key u = k /\ eu_new u = deadline d' k
  end.

(** ** Expiry is the same as absence *)

(** The dictionary without the key. *)
Definition without (k : bytes) (d : dict) : dict := Dict (write_id d) (delete k (inner d)).
(** The dictionary in which the key has no deadline. *)
Definition undying (k : bytes) (d : dict) : dict :=
  Dict (write_id d) (alter (fun v => Value (v_data v) 0 (v_log v)) k (inner d)).
