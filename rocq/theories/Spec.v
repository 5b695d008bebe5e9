(** Vocabulary of the specifications.  Nothing here refers to the operations of the model, only to
    its data types: what a dictionary contains, what a client can see of it at an instant, and what it
    means that a command changed nothing but one key. *)
From Verif Require Export Types.

(** A deadline [e] (0 = none) has not been reached at instant [t]. *)
Definition lives (t e : N) : Prop := e = 0%N \/ (t < e)%N.
Global Instance lives_dec t e : Decision (lives t e).
Proof. unfold lives; apply _. Defined.

(** What is stored under a key: data and deadline (the access statistics are left out). *)
Definition content (v : value) : data * N := (v_data v, v_exp v).
Definition contents (d : dict) (k : bytes) : option (data * N) := content <$> inner d !! k.

(** What a client can see under a key at instant [t]. *)
Definition view (t : N) (d : dict) (k : bytes) : option (data * N) :=
  match contents d k with
  | Some (x, e) => if decide (lives t e) then Some (x, e) else None
  | None => None
  end.

(** Every key other than [k] is bit for bit what it was (access statistics included), and the write
    sequence number is unchanged. *)
Definition only_key (k : bytes) (d d' : dict) : Prop :=
  write_id d' = write_id d /\ forall k', k' <> k -> inner d' !! k' = inner d !! k'.

(** Data and deadlines of all keys, and the sequence number, are unchanged. *)
Definition same_contents (d d' : dict) : Prop :=
  write_id d' = write_id d /\ forall k, contents d' k = contents d k.

(** The five kinds of values a client distinguishes. *)
Inductive kind := KString | KHash | KList | KSet | KZset.
Global Instance kind_eq_dec : EqDecision kind. Proof. solve_decision. Defined.
Definition kind_of (x : data) : kind :=
  match x with
  | DScalar _ => KString
  | DKvp _ => KHash
  | DDeque _ => KList
  | DSet _ => KSet
  | DZSet _ _ => KZset
  end.
