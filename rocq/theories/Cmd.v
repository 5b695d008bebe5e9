(** One dispatcher over all dictionary commands: component/dict/src/cmd/mod.rs. *)
From Verif Require Export CmdSimple CmdSet CmdServer.

(** [WriteCmd] (cmd/mod.rs:65-84; constructors and fields in declaration order) plus RESTORE, whose
    request is applied locally but has no [WriteCmd] form (server/restore.rs:20-26). *)
Inductive wreq :=
  | WDel (k : bytes)
  | WExpire (k : bytes) (at_ : N) (nx : nx_xx) (gl : gt_lt)
  | WIncr (k : bytes) (n : Z)
  | WSet (k : bytes) (x : scalar) (ea : expires_at) (nx : nx_xx)
  | WKvpDel (k : bytes) (fs : list bytes)
  | WKvpIncr (k f : bytes) (n : Z)
  | WKvpSet (k : bytes) (es : list (bytes * scalar)) (nx : nx_xx)
  | WDequePop (k : bytes) (count : N) (left : bool)
  | WDequePush (k : bytes) (es : list scalar) (left : bool) (nx : nx_xx)
  | WSetAdd (k : bytes) (ms : list bytes)
  | WSetRemove (k : bytes) (ms : list bytes)
  | WZAdd (k : bytes) (ns : list node) (nx : nx_xx) (gl : gt_lt) (incr : bool)
  | WZRemove (k : bytes) (ms : list bytes)
  | WZRemRank (k : bytes) (start stop : Z) (rv : bool)
  | WZRemScore (k : bytes) (r : bound f64 * bound f64) (rv : bool)
  | WZRemLex (k : bytes) (r : bound bytes * bound bytes) (rv : bool)
  | WRestore (r : restore_req).

(** The read requests of component/dict/src/cmd. The [Req] of the files with [impl Read] (cmd/mod.rs:56-61). *)
Inductive rreq :=
  | RGet (k : bytes)
  | RExists (k : bytes)
  | RTtl (k : bytes)
  | RLastVisit (k : bytes)
  | RVisitTimes (k : bytes)
  | RDump (k : bytes)
  | RKvpGet (k : bytes) (fs : list bytes)
  | RKvpGetAll (k : bytes)
  | RKvpExists (k f : bytes)
  | RDequeLen (k : bytes)
  | RDequeRange (k : bytes) (start stop : Z)
  | RSetExists (k : bytes) (fs : list bytes)
  | RSetGetAll (k : bytes)
  | RZRank (k m : bytes) (rv : bool)
  | RZRangeRank (k : bytes) (start stop : Z) (lim : limit) (rv : bool)
  | RZRangeScore (k : bytes) (r : bound f64 * bound f64) (lim : limit) (rv : bool)
  | RZRangeLex (k : bytes) (r : bound bytes * bound bytes) (lim : limit) (rv : bool).

(** Responses of all commands. The [T] of cmd/mod.rs:37-61. *)
Inductive resp :=
  | PUnit
  | PBool (b : bool)
  | PBools (l : list bool)
  | PInt (z : Z)
  | PNat (n : nat)
  | POptNat (o : option nat)
  | POptN (o : option N)
  | PLens (l : lens)
  | PZadd (r : zadd_resp)
  | PData (x : data)
  | PScalars (l : list scalar)
  | PKvp (m : gmap bytes scalar)
  | PSet (s : gset bytes)
  | PNodes (l : list node)
  | PTtl (r : ttl_resp)
  | POptBytes (o : option bytes)
  | POptValue (o : option value).

Global Instance lens_eq_dec : EqDecision lens. Proof. solve_decision. Defined.
Global Instance zadd_resp_eq_dec : EqDecision zadd_resp. Proof. solve_decision. Defined.
Global Instance ttl_resp_eq_dec : EqDecision ttl_resp. Proof. solve_decision. Defined.
Global Instance resp_eq_dec : EqDecision resp. Proof. solve_decision. Defined.
Global Instance outcome_eq_dec {A} `{EqDecision A} : EqDecision (outcome A). Proof. solve_decision. Defined.

(** Mapping over the reply of a command; the [Ok] values of the requests are kept apart in the code, here
    they are injected into one type. cmd/mod.rs:37-61. *)
Definition outcome_map {A B} (f : A -> B) (o : outcome A) : outcome B :=
  match o with OOk a => OOk (f a) | OErr e => OErr e | OPanic => OPanic end.

(** A [Write] has no [ExpiresStatus] (cmd/mod.rs:46-54). *)
Definition no_exp {A} (f : A -> resp) (r : dict * outcome A) : dict * outcome resp * exp_status :=
  (fst r, outcome_map f (snd r), None).

(** The key a request addresses. The field [key] of each [Req] of cmd/mod.rs:65-84. *)
Definition wkey (w : wreq) : bytes :=
  match w with
  | WDel k | WExpire k _ _ _ | WIncr k _ | WSet k _ _ _ | WKvpDel k _ | WKvpIncr k _ _
  | WKvpSet k _ _ | WDequePop k _ _ | WDequePush k _ _ _ | WSetAdd k _ | WSetRemove k _
  | WZAdd k _ _ _ _ | WZRemove k _ | WZRemRank k _ _ _ | WZRemScore k _ _ | WZRemLex k _ _ => k
  | WRestore r => r_key r
  end.

(** The field [key] of each [Req] with [impl Read] (cmd/mod.rs:56-61). *)
Definition rkey (r : rreq) : bytes :=
  match r with
  | RGet k | RExists k | RTtl k | RLastVisit k | RVisitTimes k | RDump k | RKvpGet k _
  | RKvpGetAll k | RKvpExists k _ | RDequeLen k | RDequeRange k _ _ | RSetExists k _ | RSetGetAll k
  | RZRank k _ _ | RZRangeRank k _ _ _ _ | RZRangeScore k _ _ _ | RZRangeLex k _ _ _ => k
  end.

(** Application of a write to a dictionary, without touching the write id
    ([ExpiresOp::apply] / [Write::apply]). cmd/mod.rs:44, 53. *)
Definition wapply (now : N) (w : wreq) (d : dict) : dict * outcome resp * exp_status :=
  match w with
  | WDel k => let '(d', o, e) := del_apply k d in (d', OOk (POptValue o), e)
  | WExpire k at_ nx gl => let '(d', b, e) := expire_apply now k at_ nx gl d in (d', OOk (PBool b), e)
  | WIncr k n => no_exp PInt (incr_apply now k n d)
  | WSet k x ea nx => let '(d', o, e) := set_apply now k x ea nx d in (d', OOk (PData o), e)
  | WKvpDel k fs => no_exp PLens (kvp_del_apply now k fs d)
  | WKvpIncr k f n => no_exp PInt (kvp_incr_apply now k f n d)
  | WKvpSet k es nx => no_exp PLens (kvp_set_apply now k es nx d)
  | WDequePop k c lf => no_exp PScalars (deque_pop_apply now k c lf d)
  | WDequePush k es lf nx => no_exp PLens (deque_push_apply now k es lf nx d)
  | WSetAdd k ms => no_exp PLens (set_add_apply now k ms d)
  | WSetRemove k ms => no_exp PLens (set_remove_apply now k ms d)
  | WZAdd k ns nx gl i => no_exp PZadd (zadd_apply now k ns nx gl i d)
  | WZRemove k ms => no_exp PLens (zrem_apply now k ms d)
  | WZRemRank k a b rv => no_exp PNodes (zremrange_rank_apply now k a b rv d)
  | WZRemScore k r rv => no_exp PNodes (zremrange_score_apply now k r rv d)
  | WZRemLex k r rv => no_exp PNodes (zremrange_lex_apply now k r rv d)
  | WRestore r => let '(d', o, e) := restore_apply now r d in (d', outcome_map (fun _ => PUnit) o, e)
  end.

(** [Read::apply]: cmd/mod.rs:60. *)
Definition rapply (ho : horder) (now : N) (r : rreq) (d : dict) : dict * outcome resp :=
  match r with
  | RGet k => let '(d', x) := get_apply now k d in (d', OOk (PData x))
  | RExists k => let '(d', b) := exists_apply now k d in (d', OOk (PBool b))
  | RTtl k => (d, OOk (PTtl (ttl_apply now k d)))
  | RLastVisit k => (d, OOk (POptN (get_last_visit_time_apply k d)))
  | RVisitTimes k => (d, OOk (POptN (get_visit_times_apply k d)))
  | RDump k => let '(d', o) := dump_apply ho now k d in (d', OOk (POptBytes o))
  | RKvpGet k fs => let '(d', o) := kvp_get_apply now k fs d in (d', outcome_map PScalars o)
  | RKvpGetAll k => let '(d', o) := kvp_get_all_apply now k d in (d', outcome_map PKvp o)
  | RKvpExists k f => let '(d', o) := kvp_exists_apply now k f d in (d', outcome_map PBool o)
  | RDequeLen k => let '(d', o) := deque_len_apply now k d in (d', outcome_map PNat o)
  | RDequeRange k a b => let '(d', o) := deque_range_apply now k a b d in (d', outcome_map PScalars o)
  | RSetExists k fs => let '(d', o) := set_exists_apply now k fs d in (d', outcome_map PBools o)
  | RSetGetAll k => let '(d', o) := set_get_all_apply now k d in (d', outcome_map PSet o)
  | RZRank k m rv => let '(d', o) := zrank_apply now k m rv d in (d', outcome_map POptNat o)
  | RZRangeRank k a b lim rv => let '(d', o) := zrange_rank_apply now k a b lim rv d in (d', outcome_map PNodes o)
  | RZRangeScore k r lim rv => let '(d', o) := zrange_score_apply now k r lim rv d in (d', outcome_map PNodes o)
  | RZRangeLex k r lim rv => let '(d', o) := zrange_lex_apply now k r lim rv d in (d', outcome_map PNodes o)
  end.
