(** What a connection should do, independently of its loop: one reply per request, in order. *)
From Verif Require Export Server SpecFrame SpecCmd SpecDb SpecBincode SpecZset.

(** Requests served one after the other until one of them ends the connection. *)
Inductive session (en : env) : (nat -> nat -> N) -> (nat -> others) -> effects -> list frame ->
    list frame -> effects -> option hend -> Prop :=
  | ss_done clock oth e : session en clock oth e [] [] e None
  | ss_reply clock oth e f fs e' r rs e2 h :
      serve_frame en (clock 0%nat) (oth 0%nat) f e = (e', inl r) ->
      session en (fun i => clock (S i)) (fun i => oth (S i)) e' fs rs e2 h ->
      session en clock oth e (f :: fs) (r :: rs) e2 h
  | ss_stop clock oth e f fs e' h :
      serve_frame en (clock 0%nat) (oth 0%nat) f e = (e', inr h) ->
      session en clock oth e (f :: fs) [] e' (Some h).

(** What a client reads when the server sends [f]. *)
Definition read_back (f : frame) : frame := match f with FPong => FSimple (bs "PONG") | _ => f end.

(** Frames whose text is one line (no limit on lengths). *)
Fixpoint tidy (f : frame) : Prop :=
  match f with
  | FSimple b => one_line b
  | FError b => b <> [] /\ one_line b
  | FInteger z => fits_i64 z
  | FBulk _ | FNull => True
  | FArray l => (fix all (l : list frame) : Prop := match l with [] => True | x :: l' => tidy x /\ all l' end) l
  | FPing | FPong | FNoRes => False
  end.

(** ** Values whose text is one line *)
Definition data_all (P : scalar -> Prop) (x : data) : Prop :=
  match x with
  | DScalar s => P s
  | DKvp m => forall f s, m !! f = Some s -> P s
  | DDeque l => Forall P l
  | DSet _ | DZSet _ _ => True
  end.
Definition write_all (P : scalar -> Prop) (w : wreq) : Prop :=
  match w with
  | WSet _ x _ _ => P x
  | WIncr _ n | WKvpIncr _ _ n => fits_i64 n
  | WKvpSet _ es _ => Forall (fun e => P (snd e)) es
  | WDequePush _ es _ _ => Forall P es
  | WRestore r => forall x, deserialize get_data (r_value r) = OOk x -> data_all P x
  | _ => True
  end.
Definition resp_all (P : scalar -> Prop) (r : resp) : Prop :=
  match r with
  | PInt z => fits_i64 z
  | PData x => data_all P x
  | PScalars l => Forall P l
  | PKvp m => forall f s, m !! f = Some s -> P s
  | _ => True
  end.
(** Every stored scalar satisfies [P]. *)
Definition db_all (P : scalar -> Prop) (b : db) : Prop := forall k x e, db_contents b k = Some (x, e) -> data_all P x.

(** A scalar that is printed on one line; texts of floats are assumed to be (see [plain]). *)
Definition printable (s : scalar) : Prop :=
  match s with SString b => one_line b | SInteger z => fits_i64 z | _ => True end.
(** The texts that the model takes as given contain no line break. *)
Definition plain (en : env) : Prop :=
  (forall x, one_line (e_fmt en x)) /\ (forall b, e_bincode en b <> [] /\ one_line (e_bincode en b)).

(** The requests that answer with members as simple strings or quote the request. *)
Definition quoting (q : request) : Prop :=
  match q with
  | QSmembers _ | QZrange _ _ _ _ | QZrangebylex _ _ _ _ | QZrangebyscore _ _ _ _ _ | QZrevrange _ _ _ _
  | QZrevrangebylex _ _ _ _ | QZrevrangebyscore _ _ _ _ _ | QUnknown _ _ => True
  | _ => False
  end.

(** The shape of replies to single commands. *)
Definition wshape (w : wreq) (r : resp) : Prop :=
  match w with
  | WDel _ => exists o, r = POptValue o
  | WExpire _ _ _ _ => exists b, r = PBool b
  | WIncr _ _ | WKvpIncr _ _ _ => exists z, r = PInt z
  | WSet _ _ _ _ => exists x, r = PData x
  | WDequePop _ _ _ => exists l, r = PScalars l
  | WKvpDel _ _ | WKvpSet _ _ _ | WDequePush _ _ _ _ | WSetAdd _ _ | WSetRemove _ _ | WZRemove _ _ => exists l, r = PLens l
  | WZAdd _ _ _ _ _ => exists z, r = PZadd z
  | WZRemRank _ _ _ _ | WZRemScore _ _ _ | WZRemLex _ _ _ => exists l, r = PNodes l
  | WRestore _ => r = PUnit
  end.
Definition rshape (c : rreq) (r : resp) : Prop :=
  match c with
  | RGet _ => exists x, r = PData x
  | RExists _ | RKvpExists _ _ => exists b, r = PBool b
  | RTtl _ => exists t, r = PTtl t
  | RLastVisit _ | RVisitTimes _ => exists o, r = POptN o
  | RDump _ => exists o, r = POptBytes o
  | RKvpGet _ fs => exists l, r = PScalars l /\ length l = length fs
  | RKvpGetAll _ => exists m, r = PKvp m
  | RDequeLen _ => exists n, r = PNat n
  | RDequeRange _ _ _ => exists l, r = PScalars l
  | RSetExists _ fs => exists l, r = PBools l /\ length l = length fs
  | RSetGetAll _ => exists s, r = PSet s
  | RZRank _ _ _ => exists o, r = POptNat o
  | RZRangeRank _ _ _ _ _ | RZRangeScore _ _ _ _ | RZRangeLex _ _ _ _ => exists l, r = PNodes l
  end.
Definition cshape (c : cmd) (r : resp) : Prop := match c with CWrite w => wshape w r | CRead rd => rshape rd r end.

(** ** Frames that can arrive: simple strings are single lines, integers have 64 bits. *)
Fixpoint wire (f : frame) : Prop :=
  match f with
  | FSimple b => one_line b
  | FInteger z => fits_i64 z
  | FArray l => (fix all (l : list frame) : Prop := match l with [] => True | x :: l' => wire x /\ all l' end) l
  | _ => True
  end.
(** The scalars and numbers a request asks to store. *)
Definition request_all (P : scalar -> Prop) (q : request) : Prop :=
  match q with
  | QSet _ x _ | QSetex _ _ x | QPsetex _ _ x | QHsetnx _ _ x => P x
  | QHset _ es => Forall (fun e => P (snd e)) es
  | QLpush _ xs | QRpush _ xs | QLpushx _ xs | QRpushx _ xs => Forall P xs
  | QIncrby _ n | QHincrby _ _ n => fits_i64 n
  | QRestore _ _ v _ => forall x, deserialize get_data v = OOk x -> data_all P x
  | _ => True
  end.
(** The rest of the server stores only scalars satisfying [P], too. *)
Definition others_keep (P : scalar -> Prop) (oth : others) : Prop :=
  forall i e, db_all P (ef_db e) -> db_all P (ef_db (oth i e)).

(** Requests for the same kind of command with one key each, one after the other; [z] sums up the replies. *)
Inductive each_key (en : env) (mk : bytes -> request) : (nat -> N) -> others -> list bytes -> effects -> Z -> effects -> Prop :=
  | ek_nil clock oth e : each_key en mk clock oth [] e 0 e
  | ek_cons clock oth k ks e e1 z1 z e2 :
      serve_request en clock oth (mk k) e = (e1, inl (FInteger z1)) ->
      each_key en mk (fun i => clock (S i)) (fun i => oth (S i)) ks e1 z e2 ->
      each_key en mk clock oth (k :: ks) e (z1 + z)%Z e2.

(** Sorted sets whose two indexes agree and hold no NaN. *)
Definition sound_db (b : db) : Prop :=
  forall k h l e, db_contents b k = Some (DZSet h l, e) -> Forall (fun n => not_nan (n_score n)) l /\ indexes_agree h l.
(** Requests whose bounds and scores are in order. *)
Definition calm_request (q : request) : Prop :=
  forall t, plan_of t q <> APanic /\
    forall cs, plan_of t q = AOk (PCmds cs) -> Forall (fun c => match c with CWrite w => calm_write w | CRead r => calm_read r end) cs.
(** The requests that never take a score, a bound of a range or a payload. *)
Definition simple_request (q : request) : Prop :=
  match q with
  | QZadd _ _ _ | QZrange _ _ _ _ | QZrangebylex _ _ _ _ | QZrangebyscore _ _ _ _ _ | QZremrangebylex _ _ _
  | QZremrangebyscore _ _ _ | QZrevrange _ _ _ _ | QZrevrangebylex _ _ _ _ | QZrevrangebyscore _ _ _ _ _
  | QRestore _ _ _ _ | QDebug _ _ => False
  | _ => True
  end.

(** The deadline that SET asks for at instant [t] when the key shows [cur]; 0 is none. *)
Definition asked_deadline (t : N) (x : set_expires) (cur : option (data * N)) : N :=
  match x with
  | ExEx n => t + n * 1000
  | ExPx n => t + n
  | ExExat n => n * 1000
  | ExPxat n => n
  | ExKeepttl => match cur with Some (_, e) => e | None => 0 end
  | ExNone => 0
  end%N.
(** The deadline that a request of the EXPIRE family asks for. *)
Definition expire_asks (t : N) (q : request) : option (bytes * N) :=
  match q with
  | QExpire k n _ => Some (k, t + n * 1000)
  | QPexpire k n _ => Some (k, t + n)
  | QExpireat k n _ => Some (k, n * 1000)
  | QPexpireat k n _ => Some (k, n)
  | _ => None
  end%N.
