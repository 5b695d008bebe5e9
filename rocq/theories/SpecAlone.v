(** One client among others: which keys a request is about, and which it may change. *)
From Verif Require Export SpecAnytime SpecProcess.

Definition named_keys (q : request) : list bytes :=
  match q with
  | QPing | QUnknown _ _ | QSyncsnapshot _ | QConfig _ _ | QFlushall _ | QInfo => []
  | QDel ks | QExists ks => ks
  | QDebug _ ps | QObject _ ps => match ps with k :: _ => [k] | [] => [] end
  | QDecr k | QDecrby k _ | QExpire k _ _ | QExpireat k _ _ | QGet k | QIncr k | QIncrby k _ | QPexpire k _ _ | QPexpireat k _ _
  | QPsetex k _ _ | QPttl k | QSet k _ _ | QSetex k _ _ | QTtl k
  | QHdel k _ | QHexists k _ | QHget k _ | QHgetall k | QHincrby k _ _ | QHmget k _ | QHset k _ | QHsetnx k _ _
  | QLlen k | QLpop k _ | QLpush k _ | QLpushx k _ | QLrange k _ _ | QRpop k _ | QRpush k _ | QRpushx k _
  | QDump k | QRestore k _ _ _ | QSadd k _ | QSismember k _ | QSmembers k | QSmismember k _ | QSrem k _
  | QZadd k _ _ | QZrange k _ _ _ | QZrangebylex k _ _ _ | QZrangebyscore k _ _ _ _ | QZrank k _ | QZrem k _ | QZremrangebylex k _ _
  | QZremrangebyrank k _ _ | QZremrangebyscore k _ _ | QZrevrange k _ _ _ | QZrevrangebylex k _ _ _ | QZrevrangebyscore k _ _ _ _
  | QZrevrank k _ => [k]
  end.
(** Requests that only look. *)
Definition looks (q : request) : bool :=
  match q with
  | QGet _ | QExists _ | QPttl _ | QTtl _ | QHexists _ _ | QHget _ _ | QHgetall _ | QHmget _ _ | QLlen _ | QLrange _ _ _ | QDump _
  | QDebug _ _ | QObject _ _ | QSismember _ _ | QSmembers _ | QSmismember _ _ | QZrange _ _ _ _ | QZrangebylex _ _ _ _
  | QZrangebyscore _ _ _ _ _ | QZrank _ _ | QZrevrange _ _ _ _ | QZrevrangebylex _ _ _ _ | QZrevrangebyscore _ _ _ _ _ | QZrevrank _ _ => true
  | _ => false
  end.
Definition may_change (q : request) : list bytes := if looks q then [] else named_keys q.

(** [K] has all keys these requests are about. *)
Definition within (K : bytes -> Prop) (qs : list request) : Prop := forall q k, In q qs -> In k (named_keys q) -> K k.
(** These requests leave [K] alone: they may look there, and do as they like with other keys. *)
Definition spares (K : bytes -> Prop) (qs : list request) : Prop :=
  forall q, In q qs -> (forall sync, q <> QFlushall sync) /\ forall k, In k (may_change q) -> ~ K k.
(** Nobody but client [i], who speaks about no other keys, changes the keys [K]. *)
Definition undisturbed (ins : list (list request)) (i : nat) (K : bytes -> Prop) : Prop :=
  within K (nth i ins []) /\ forall j, j <> i -> spares K (nth j ins []).
(** What client [i] did. *)
Definition did_itself (i : nat) (l : list deed) : list deed := List.filter (fun d => Nat.eqb (doer d) i) l.
(** The requests that arrived on connection [i], whether served or not. *)
Definition was_asked (evs : list (N * pevent)) (i : nat) (q : request) : Prop :=
  exists f, In f (fst (conn_requests (arrived i evs))) /\ from_frame f = Some q.
