(** What sorted sets should do: a map from members to scores, listed by (score, member). *)
From Coq Require Export Sorting.Sorted.
From Verif Require Import Db SpecDb.
From Verif Require Export SpecColl.

(** ** The order of a listing *)

(** Byte strings: the first difference decides, a proper prefix comes first. *)
Definition bytes_before (x y : bytes) : Prop :=
  (exists b r, y = x ++ b :: r) \/
  (exists p a b r r', x = p ++ a :: r /\ y = p ++ b :: r' /\ (Byte.to_N a < Byte.to_N b)%N).
(** Lower score first; equal scores by member. *)
Definition node_before (a b : node) : Prop :=
  f64_lt (n_score a) (n_score b) = true \/
  (f64_eq (n_score a) (n_score b) = true /\ bytes_before (n_key a) (n_key b)).

(** [l] lists the members of [m] with their scores, in order. *)
Definition sorted_listing (m : gmap bytes f64) (l : list node) : Prop :=
  StronglySorted node_before l /\
  forall n, n ∈ l <-> m !! n_key n = Some (n_score n).

(** A computable listing (insertion sort); [listing_sorted] below shows it is the one above. *)
Fixpoint bytes_beforeb (x y : bytes) : bool :=
  match x, y with
  | _, [] => false
  | [], _ :: _ => true
  | a :: x', b :: y' =>
      if (Byte.to_N a <? Byte.to_N b)%N then true
      else if (Byte.to_N a =? Byte.to_N b)%N then bytes_beforeb x' y' else false
  end.
Definition node_beforeb (a b : node) : bool :=
  f64_lt (n_score a) (n_score b) || (f64_eq (n_score a) (n_score b) && bytes_beforeb (n_key a) (n_key b)).
Fixpoint place (n : node) (l : list node) : list node :=
  match l with [] => [n] | x :: l' => if node_beforeb n x then n :: l else x :: place n l' end.
Definition listing (m : gmap bytes f64) : list node :=
  foldr place [] (map (fun p => Node p.2 p.1) (map_to_list m)).

(** ** Representation in the database: the hash holds a node per member, the tree the listing *)
Definition nodes_of (m : gmap bytes f64) : gmap bytes node := map_imap (fun k s => Some (Node s k)) m.
Definition zset_data (m : gmap bytes f64) : data := DZSet (nodes_of m) (listing m).

(** ** Operations *)
Inductive zset_op :=
  | ZAdd (ns : list node) (nx : nx_xx) (gl : gt_lt)
  | ZRem (ms : list bytes)
  | ZRemRank (a b : Z)
  | ZRemScore (r : bound f64 * bound f64)
  | ZRank (m : bytes) (rv : bool)
  | ZRange (a b : Z) (lim : limit) (rv : bool)
  | ZRangeByScore (r : bound f64 * bound f64) (lim : limit) (rv : bool).

Definition zset_cmd (k : bytes) (o : zset_op) : cmd :=
  match o with
  | ZAdd ns nx gl => CWrite (WZAdd k ns nx gl false)
  | ZRem ms => CWrite (WZRemove k ms)
  | ZRemRank a b => CWrite (WZRemRank k a b false)
  | ZRemScore r => CWrite (WZRemScore k r false)
  | ZRank m rv => CRead (RZRank k m rv)
  | ZRange a b lim rv => CRead (RZRangeRank k a b lim rv)
  | ZRangeByScore r lim rv => CRead (RZRangeScore k r lim rv)
  end.

(** Redis: may ZADD give the score [new] to a member whose score is [old]? *)
Definition zadd_allowed (nx : nx_xx) (gl : gt_lt) (old : option f64) (new : f64) : bool :=
  match old with
  | None => match nx with NxXx_Xx => false | _ => true end
  | Some s =>
      match nx with NxXx_Nx => false | _ => true end &&
      match gl with GtLt_Gt => f64_lt s new | GtLt_Lt => f64_lt new s | GtLt_None => true end
  end.
(** One member after the other; the number of members written. *)
Definition zadd_one (nx : nx_xx) (gl : gt_lt) (p : gmap bytes f64 * nat) (n : node) : gmap bytes f64 * nat :=
  if zadd_allowed nx gl (p.1 !! n_key n) (n_score n)
  then (<[n_key n := n_score n]> p.1, S p.2) else p.

Definition above_bound (lo : bound f64) (s : f64) : bool :=
  match lo with Unbounded => true | Included x => f64_le x s | Excluded x => f64_lt x s end.
Definition below_bound (hi : bound f64) (s : f64) : bool :=
  match hi with Unbounded => true | Included x => f64_le s x | Excluded x => f64_lt s x end.
(** The members with a score in the interval, in listing order. *)
Definition by_score (r : bound f64 * bound f64) (l : list node) : list node :=
  List.filter (fun n => above_bound (fst r) (n_score n) && below_bound (snd r) (n_score n)) l.

(** LIMIT offset count. *)
Definition window {A} (lim : limit) (l : list A) : list A :=
  match lim with
  | None => l
  | Some (o, c) => let l' := skipn (Z.to_nat o) l in if (c <? 0)%Z then l' else firstn (Z.to_nat c) l'
  end.
Definition directed {A} (rv : bool) (l : list A) : list A := if rv then rev l else l.

(** The map without the members of the listed nodes. *)
Definition without_members (ms : list bytes) (m : gmap bytes f64) : gmap bytes f64 := filter (fun p => p.1 ∉ ms) m.

(** Position of the first element satisfying [P]. *)
Fixpoint index_of (m : bytes) (l : list node) : option nat :=
  match l with
  | [] => None
  | n :: l' => if decide (n_key n = m) then Some O else S <$> index_of m l'
  end.

Definition zset_step (o : zset_op) (s : option (gmap bytes f64)) : option (gmap bytes f64) * outcome resp :=
  let m := default ∅ s in
  match o with
  | ZAdd ns nx gl =>
      let p := fold_left (zadd_one nx gl) ns (m, O) in
      (Some p.1, OOk (PZadd (ZaddResp (size m) (size p.1) p.2)))
  | ZRem ms =>
      match s with
      | Some _ => let m' := without_members ms m in (Some m', OOk (PLens (Lens (size m) (size m'))))
      | None => (None, OOk (PLens (Lens 0 0)))
      end
  | ZRemRank a b =>
      let gone := slice a b (listing m) in
      (without_members (map n_key gone) <$> s, OOk (PNodes gone))
  | ZRemScore r =>
      let gone := by_score r (listing m) in
      (without_members (map n_key gone) <$> s, OOk (PNodes gone))
  | ZRank mb rv => (s, OOk (POptNat (index_of mb (directed rv (listing m)))))
  | ZRange a b lim rv => (s, OOk (PNodes (window lim (slice a b (directed rv (listing m))))))
  | ZRangeByScore r lim rv => (s, OOk (PNodes (window lim (directed rv (by_score r (listing m))))))
  end.

(** ** Conditions under which the code follows Redis *)

Definition not_nan (x : f64) : Prop := f64_is_nan x = false.
Definition no_nans (m : gmap bytes f64) : Prop := forall k s, m !! k = Some s -> not_nan s.

(** GT/LT only together with XX (without XX the code does not add missing members, see C32). *)
Definition zadd_regular (nx : nx_xx) (gl : gt_lt) : Prop := gl = GtLt_None \/ nx = NxXx_Xx.
(** A score interval on which the search does not panic and does not lose members: the bounds are numbers,
    not reversed, and the upper one plus 0.1 exceeds it. *)
Definition score_range_regular (r : bound f64 * bound f64) : Prop :=
  match fst r with Unbounded => True | Included a | Excluded a => not_nan a end /\
  match snd r with Unbounded => True | Included b | Excluded b => f64_lt b (f64_add b f64_tenth) = true end /\
  match fst r, snd r with
  | Unbounded, _ | _, Unbounded => True
  | (Included a | Excluded a), (Included b | Excluded b) => f64_le a b = true
  end.
Definition limit_regular (lim : limit) : Prop := match lim with Some (o, _) => (0 <= o)%Z | None => True end.

Definition zset_regular (o : zset_op) : Prop :=
  match o with
  | ZAdd ns nx gl => Forall (fun n => not_nan (n_score n)) ns /\ zadd_regular nx gl
  | ZRemScore r => score_range_regular r
  | ZRange _ _ lim _ => limit_regular lim
  | ZRangeByScore r lim _ => score_range_regular r /\ limit_regular lim
  | _ => True
  end.

(** ** Agreement of the two indexes of a sorted set *)
Definition indexes_agree (h : gmap bytes node) (l : list node) : Prop :=
  StronglySorted node_before l /\
  NoDup (map n_key l) /\
  (forall n, n ∈ l <-> h !! n_key n = Some n) /\
  (forall k n, h !! k = Some n -> n_key n = k).

(** Writes without ZADD INCR, NaN scores and RESTORE payloads. *)
Definition gentle (w : wreq) : Prop :=
  match w with
  | WZAdd _ ns _ _ incr => incr = false /\ Forall (fun n => not_nan (n_score n)) ns
  | WRestore _ => False
  | _ => True
  end.

(** ** Lexicographic intervals *)
Definition lex_above (lo : bound bytes) (k : bytes) : bool :=
  match lo with Unbounded => true | Included x => negb (bytes_beforeb k x) | Excluded x => bytes_beforeb x k end.
Definition lex_below (hi : bound bytes) (k : bytes) : bool :=
  match hi with Unbounded => true | Included x => negb (bytes_beforeb x k) | Excluded x => bytes_beforeb k x end.
Definition by_lex (r : bound bytes * bound bytes) (l : list node) : list node :=
  List.filter (fun n => lex_above (fst r) (n_key n) && lex_below (snd r) (n_key n)) l.
(** Bounds that are not reversed; if both are exclusive, they differ. *)
Definition lex_range_regular (r : bound bytes * bound bytes) : Prop :=
  match r with
  | (Excluded a, Excluded b) => bytes_beforeb a b = true
  | (Included a, Included b) | (Included a, Excluded b) | (Excluded a, Included b) => bytes_beforeb b a = false
  | _ => True
  end.
Definition equal_scores (m : gmap bytes f64) : Prop :=
  forall k k' s s', m !! k = Some s -> m !! k' = Some s' -> f64_eq s s' = true.

(** The query that shows what a removal by range removes. *)
Definition range_read (w : wreq) : option rreq :=
  match w with
  | WZRemRank k a b false => Some (RZRangeRank k a b None false)
  | WZRemScore k r false => Some (RZRangeScore k r None false)
  | WZRemLex k r false => Some (RZRangeLex k r None false)
  | _ => None
  end.

(** Requests that cannot panic on a sorted set with agreeing indexes. *)
Definition calm_write (w : wreq) : Prop :=
  match w with
  | WZAdd _ ns _ _ incr => incr = false /\ Forall (fun n => not_nan (n_score n)) ns
  | WZRemScore _ r _ => score_range_regular r
  | WZRemLex _ r _ => lex_range_regular r
  | WRestore _ => False
  | _ => True
  end.
Definition calm_read (r : rreq) : Prop :=
  match r with
  | RZRangeScore _ r _ _ => score_range_regular r
  | RZRangeLex _ r _ _ => lex_range_regular r
  | _ => True
  end.
