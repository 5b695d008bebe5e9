(** DEL and EXISTS of several keys, as the requests for the single keys. *)
From Verif Require Export SpecTalk.

Definition parts (q : request) : list request :=
  match q with
  | QDel (k :: ks) => map (fun k => QDel [k]) (k :: ks)
  | QExists (k :: ks) => map (fun k => QExists [k]) (k :: ks)
  | _ => [q]
  end.
Definition sum_of (zs : list Z) : Z := fold_right Z.add 0%Z zs.

(** [merged qs ps rs]: the requests [qs] are answered with [rs] if their parts are answered with [ps]: a request that has
    several parts gets the sum. *)
Inductive merged : list request -> list frame -> list frame -> Prop :=
  | merged_nil : merged [] [] []
  | merged_one q f qs ps rs : parts q = [q] -> merged qs ps rs -> merged (q :: qs) (f :: ps) (f :: rs)
  | merged_sum q zs qs ps rs : length zs = length (parts q) -> merged qs ps rs ->
      merged (q :: qs) (map FInteger zs ++ ps) (FInteger (sum_of zs) :: rs).

(** No request that fits into memory has 2^63 parts. *)
Definition separable (q : request) : Prop := (Z.of_nat (length (parts q)) < 2 ^ 63)%Z.
(** All requests but FLUSHALL, which does not consist of requests (SpecFlush.v says what it consists of). *)
Definition divisible (q : request) : Prop :=
  match q with QFlushall _ => False | _ => (Z.of_nat (length (parts q)) < 2 ^ 63)%Z end.

(** The requests of one client with their clock readings, taken apart. *)
Fixpoint part_entries (clock : nat -> N) (ps : list request) : list serial_entry :=
  match ps with
  | [] => []
  | p :: ps' => Served 0 p clock :: part_entries (fun n => clock (S n)) ps'
  end.
Fixpoint entries_apart (clock : nat -> nat -> N) (qs : list request) : list serial_entry :=
  match qs with
  | [] => []
  | q :: qs' => part_entries (clock O) (parts q) ++ entries_apart (fun i => clock (S i)) qs'
  end.
