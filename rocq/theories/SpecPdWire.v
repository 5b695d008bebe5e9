(** What the claims about the messages between servers and driver are stated with. *)
From Verif Require Export PdWire SpecFrame SpecPd.

(** An address without flow label and scope id; any address. *)
Definition wire_addr (a : N) : Prop := (a < 2 ^ 48 + 2 ^ 144)%N.
(** The address without flow label and scope id. *)
Definition strip (a : N) : N := if (a <? 2 ^ 48)%N then a else (2 ^ 48 + (a - 2 ^ 48) mod 2 ^ 144)%N.
Definition leader_fits (l : leader_info) : Prop := (li_id l < 2 ^ 64)%N /\ wire_addr (li_server l) /\ wire_addr (li_forward l).
Definition status_fits (s : status) : Prop :=
  (st_server s < 2 ^ 64)%N /\ (st_group s < 2 ^ 64)%N /\ forall l, st_leader s = Some l -> leader_fits l.
(** The counters of the driver have room for another id, and it only knows addresses that can be sent. *)
Definition pd_fits (p : pd) : Prop :=
  forall g, In g (pd_groups p) ->
    (gr_id g < 2 ^ 64)%N /\ (gr_latest g + 1 < 2 ^ 64)%N /\
    (forall l, gr_leader g = Some l -> leader_fits l) /\ forall s, In s (gr_servers g) -> (sv_id s <= gr_latest g)%N.

(** [rs] are the answers to the frames [fs], one each and in this order, when the other connections do
    [oth i] before request number [i]. *)
Inductive answers (txt : frame -> bytes) (clock : nat -> N) (oth : nat -> pd -> pd) : nat -> list frame -> pd -> list frame -> pd -> Prop :=
  | answers_nil i p : answers txt clock oth i [] p [] p
  | answers_cons i f fs p p1 r rs p2 :
      pd_serve txt (clock i) f (oth i p) = (p1, Some r) -> answers txt clock oth (S i) fs p1 rs p2 ->
      answers txt clock oth i (f :: fs) p (r :: rs) p2.
Definition is_array (f : frame) : Prop := exists l, f = FArray l.
(** The three messages that mean something to the driver: a string, in any case, and for two of them a string
    that holds a record. *)
Definition str (f : frame) (b : bytes) : Prop := f = FBulk b \/ f = FSimple b.
Definition meaningful (f : frame) : Prop :=
  exists n h rest, f = FArray (h :: rest) /\ str h n /\
    (lowercase n = bs "pd_crate_group" \/
     (lowercase n = bs "pd_sever_init" /\ exists h2 b rest2 x, rest = h2 :: rest2 /\ str h2 b /\ deserialize get_init b = OOk x) \/
     (lowercase n = bs "pd_sever_heartbeat" /\ exists h2 b rest2 x, rest = h2 :: rest2 /\ str h2 b /\ deserialize get_status b = OOk x)).
(** No server joins. *)
Definition no_joins (evs : list cevent) : Prop :=
  Forall (fun ev => match ev with SJoin _ _ _ _ _ _ => False | _ => True end) evs.
