(** Which kind of value each request works on (None: any kind). *)
From Verif Require Export Cmd SpecSimple.

Definition wkind (w : wreq) : option kind :=
  match w with
  | WIncr _ _ => Some KString
  | WKvpDel _ _ | WKvpIncr _ _ _ | WKvpSet _ _ _ => Some KHash
  | WDequePop _ _ _ | WDequePush _ _ _ _ => Some KList
  | WSetAdd _ _ | WSetRemove _ _ => Some KSet
  | WZAdd _ _ _ _ _ | WZRemove _ _ | WZRemRank _ _ _ _ | WZRemScore _ _ _ | WZRemLex _ _ _ => Some KZset
  | WDel _ | WExpire _ _ _ _ | WSet _ _ _ _ | WRestore _ => None
  end.
Definition rkind (r : rreq) : option kind :=
  match r with
  | RKvpGet _ _ | RKvpGetAll _ | RKvpExists _ _ => Some KHash
  | RDequeLen _ | RDequeRange _ _ _ => Some KList
  | RSetExists _ _ | RSetGetAll _ => Some KSet
  | RZRank _ _ _ | RZRangeRank _ _ _ _ _ | RZRangeScore _ _ _ _ | RZRangeLex _ _ _ _ => Some KZset
  | RGet _ | RExists _ | RTtl _ | RLastVisit _ | RVisitTimes _ | RDump _ => None
  end.

(** SET without NX/XX and with an explicit (or no) expiry, and DEL, look at the raw value. *)
Definition peeks (w : wreq) : bool :=
  match w with
  | WDel _ => true
  | WSet _ _ (Specific _) NxXx_None => true
  | _ => false
  end.

(** OBJECT FREQ / IDLETIME look at the raw value. *)
Definition rpeeks (r : rreq) : bool :=
  match r with RLastVisit _ | RVisitTimes _ => true | _ => false end.

(** Reads whose answer mentions the deadline. *)
Definition tells_deadline (r : rreq) : bool :=
  match r with RTtl _ | RDump _ => true | _ => false end.
