(** Specification of lists, hashes and sets as mathematical objects. *)
From Verif Require Export SpecDb.

(** ** Lists.  State: [None] if the key is absent. *)
Inductive list_op :=
  | LPush (lf : bool) (es : list scalar)
  | LPushX (lf : bool) (es : list scalar)
  | LPop (lf : bool) (n : N)
  | LLen
  | LRange (a b : Z).

Definition list_cmd (k : bytes) (o : list_op) : cmd :=
  match o with
  | LPush lf es => CWrite (WDequePush k es lf NxXx_None)
  | LPushX lf es => CWrite (WDequePush k es lf NxXx_Xx)
  | LPop lf n => CWrite (WDequePop k n lf)
  | LLen => CRead (RDequeLen k)
  | LRange a b => CRead (RDequeRange k a b)
  end.

(** Negative indices count from the end. *)
Definition from_end (len : nat) (i : Z) : Z := if (i <? 0)%Z then (Z.of_nat len + i)%Z else i.
(** Pair every element with its position. *)
Fixpoint positions {A} (i : Z) (l : list A) : list (Z * A) :=
  match l with [] => [] | x :: l' => (i, x) :: positions (i + 1) l' end.
(** The elements at the positions from [a] to [b] inclusive. *)
Definition slice {A} (a b : Z) (l : list A) : list A :=
  map snd (List.filter (fun p => (from_end (length l) a <=? fst p)%Z && (fst p <=? from_end (length l) b)%Z)
                       (positions 0 l)).

(** The elements appear at the left end one after the other, or are appended. *)
Definition pushed {A} (lf : bool) (es l : list A) : list A := if lf then rev es ++ l else l ++ es.
(** The first [n] elements from the given end, nearest first, and what remains. *)
Definition popped {A} (lf : bool) (n : nat) (l : list A) : list A :=
  if lf then firstn n l else firstn n (rev l).
Definition unpopped {A} (lf : bool) (n : nat) (l : list A) : list A :=
  if lf then skipn n l else rev (skipn n (rev l)).

Definition list_step (o : list_op) (s : option (list scalar)) : option (list scalar) * outcome resp :=
  match o with
  | LPush lf es =>
      let l := default [] s in
      (Some (pushed lf es l), OOk (PLens (Lens (length l) (length l + length es))))
  | LPushX lf es =>
      match s with
      | Some l => (Some (pushed lf es l), OOk (PLens (Lens (length l) (length l + length es))))
      | None => (None, OOk (PLens (Lens 0 0)))
      end
  | LPop lf n =>
      match s with
      | Some l =>
          let c := N.to_nat (N.min n (N.of_nat (length l))) in
          (Some (unpopped lf c l), OOk (PScalars (popped lf c l)))
      | None => (None, OOk (PScalars []))
      end
  | LLen => (s, OOk (PNat (length (default [] s))))
  | LRange a b => (s, OOk (PScalars (slice a b (default [] s))))
  end.

(** ** Hashes: finite maps from fields to scalars. *)
Inductive hash_op :=
  | HSet (es : list (bytes * scalar))
  | HSetNx (f : bytes) (x : scalar)
  | HDel (fs : list bytes)
  | HIncr (f : bytes) (n : Z)
  | HGet (fs : list bytes)
  | HGetAll
  | HExists (f : bytes).

Definition hash_cmd (k : bytes) (o : hash_op) : cmd :=
  match o with
  | HSet es => CWrite (WKvpSet k es NxXx_None)
  | HSetNx f x => CWrite (WKvpSet k [(f, x)] NxXx_Nx)
  | HDel fs => CWrite (WKvpDel k fs)
  | HIncr f n => CWrite (WKvpIncr k f n)
  | HGet fs => CRead (RKvpGet k fs)
  | HGetAll => CRead (RKvpGetAll k)
  | HExists f => CRead (RKvpExists k f)
  end.

(** Of several bindings of one field the last one counts. *)
Definition bindings (es : list (bytes * scalar)) : gmap bytes scalar := list_to_map (rev es).
(** The fields named by a command, each once. *)
Definition named {A} (es : list (bytes * A)) : gset bytes := list_to_set (map fst es).

(** [num] reads scalars as integers: right on every integer and refusing all text that does not begin
    like a number, as well as everything that is neither text nor integer.  (On text with a numeric prefix it may do as it likes, see C19.) *)
Definition reads_integers (num : scalar -> Z + err) : Prop :=
  (forall x z, stands_for (DScalar x) z -> num x = inl z) /\
  (forall t, no_number_prefix t -> num (SBytes t) = inr ENotInt /\ num (SString t) = inr ENotInt) /\
  (forall x, match x with SBytes _ | SString _ | SInteger _ => False | _ => True end -> num x = inr EWrongType).

Definition hash_step (num : scalar -> Z + err) (o : hash_op) (s : option (gmap bytes scalar))
  : option (gmap bytes scalar) * outcome resp :=
  let m := default ∅ s in
  match o with
  | HSet es => (Some (bindings es ∪ m), OOk (PLens (Lens (size m) (size m + size (named es ∖ dom m)))))
  | HSetNx f x =>
      match m !! f with
      | None => (Some (<[f := x]> m), OOk (PLens (Lens (size m) (size m + 1))))
      | Some _ => (s, OOk (PLens (Lens (size m) (size m))))
      end
  | HDel fs =>
      (filter (fun p => p.1 ∉ fs) <$> s,
       OOk (PLens (Lens (size m) (size m - size (list_to_set fs ∩ dom m)))))
  | HIncr f n =>
      match m !! f with
      | None => (Some (<[f := SInteger n]> m), OOk (PInt n))
      | Some x =>
          match num x with
          | inl z => (Some (<[f := SInteger (as_i64 (z + n))]> m), OOk (PInt (as_i64 (z + n))))
          | inr er => (s, OErr er)
          end
      end
  | HGet fs => (s, OOk (PScalars (map (fun f => default SNull (m !! f)) fs)))
  | HGetAll => (s, OOk (PKvp m))
  | HExists f => (s, OOk (PBool (bool_decide (f ∈ dom m))))
  end.

(** ** Sets *)
Inductive set_op :=
  | SAdd (ms : list bytes)
  | SRem (ms : list bytes)
  | SIsMember (ms : list bytes)
  | SMembers.
Definition set_cmd (k : bytes) (o : set_op) : cmd :=
  match o with
  | SAdd ms => CWrite (WSetAdd k ms)
  | SRem ms => CWrite (WSetRemove k ms)
  | SIsMember ms => CRead (RSetExists k ms)
  | SMembers => CRead (RSetGetAll k)
  end.
Definition set_step (o : set_op) (s : option (gset bytes)) : option (gset bytes) * outcome resp :=
  match o with
  | SAdd ms =>
      let x := default ∅ s in
      let y := x ∪ list_to_set ms in (Some y, OOk (PLens (Lens (size x) (size y))))
  | SRem ms =>
      match s with
      | Some x => let y := x ∖ list_to_set ms in (Some y, OOk (PLens (Lens (size x) (size y))))
      | None => (None, OOk (PLens (Lens 0 0)))
      end
  | SIsMember ms => (s, OOk (PBools (map (fun m => bool_decide (m ∈ default ∅ s)) ms)))
  | SMembers => (s, OOk (PSet (default ∅ s)))
  end.

(** ** Queues *)
(** RPUSH and LPOP only. *)
Definition queue_op (o : list_op) : Prop :=
  match o with LPush false _ | LPop true _ => True | _ => False end.
Definition all_pushed (ops : list list_op) : list scalar :=
  concat (map (fun o => match o with LPush _ es => es | _ => [] end) ops).
Definition all_popped (rs : list (outcome resp)) : list scalar :=
  concat (map (fun r => match r with OOk (PScalars l) => l | _ => [] end) rs).

(** ** Collections without elements *)
Definition empty_collection (x : data) : Prop :=
  x = DKvp ∅ \/ x = DDeque [] \/ x = DSet ∅ \/ x = DZSet ∅ [].
