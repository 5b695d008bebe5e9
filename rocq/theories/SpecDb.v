(** Specification vocabulary for the database: one flat map, and what a client can see. *)
From Verif Require Export Db SpecCmd.

(** What the database stores / shows under a key, through the slot of the key. *)
Definition db_contents (b : db) (k : bytes) : option (data * N) := contents (b (get_slot k)) k.
Definition db_view (t : N) (b : db) (k : bytes) : option (data * N) := view t (b (get_slot k)) k.
Definition db_raw (b : db) (k : bytes) : option value := inner (b (get_slot k)) !! k.

(** The unsharded store: the same commands on one dictionary. *)
Definition flat_cmd (ho : horder) (now : N) (c : cmd) (d : dict) : dict * outcome resp :=
  match c with
  | CWrite w => fst (wapply now w d)
  | CRead r => rapply ho now r d
  end.
Fixpoint flat_run (ho : horder) (h : list (N * cmd)) (d : dict) : dict * list (outcome resp) :=
  match h with
  | [] => (d, [])
  | (now, c) :: h' =>
      let '(d1, r) := flat_cmd ho now c d in
      let '(d2, rs) := flat_run ho h' d1 in (d2, r :: rs)
  end.

(** The sharded database holds exactly what the flat one holds. *)
Definition same_store (b : db) (d : dict) : Prop := forall k, db_raw b k = inner d !! k.

(** No command of the history writes the key. *)
Definition no_write_to (k : bytes) (h : list (N * cmd)) : Prop :=
  Forall (fun p => match snd p with CWrite w => wkey w <> k | CRead _ => True end) h.
(** No command of the history addresses the key. *)
Definition no_cmd_on (k : bytes) (h : list (N * cmd)) : Prop := Forall (fun p => ckey (snd p) <> k) h.

(** The writes of a history that go to slot [i], in order. *)
Fixpoint writes_in (i : N) (h : list (N * cmd)) : list wreq :=
  match h with
  | [] => []
  | (_, CWrite w) :: h' => if (get_slot (wkey w) =? i)%N then w :: writes_in i h' else writes_in i h'
  | (_, CRead _) :: h' => writes_in i h'
  end.
(** [start+1, start+2, ...] on 64 bits. *)
Fixpoint ids_from (start : N) (n : nat) : list N :=
  match n with
  | O => []
  | S n' => let i := ((start + 1) mod 2 ^ 64)%N in i :: ids_from i n'
  end.

(** ** Counters *)
(** The increments of key [k] in a history. *)
Fixpoint increments (k : bytes) (h : list (N * cmd)) : list Z :=
  match h with
  | [] => []
  | (_, CWrite (WIncr k' n)) :: h' => if decide (k' = k) then n :: increments k h' else increments k h'
  | _ :: h' => increments k h'
  end.
(** The replies to these increments. *)
Fixpoint increment_replies (k : bytes) (h : list (N * cmd)) (rs : list (outcome resp)) : list (outcome resp) :=
  match h, rs with
  | (_, CWrite (WIncr k' n)) :: h', r :: rs' =>
      if decide (k' = k) then r :: increment_replies k h' rs' else increment_replies k h' rs'
  | _ :: h', _ :: rs' => increment_replies k h' rs'
  | _, _ => []
  end.
Definition only_increments (k : bytes) (h : list (N * cmd)) : Prop :=
  Forall (fun p => match snd p with CWrite w => wkey w = k -> exists n, w = WIncr k n | CRead _ => True end) h.
(** The 64-bit number congruent to [z]. *)
Definition as_i64 (z : Z) : Z := ((z + 2 ^ 63) mod 2 ^ 64 - 2 ^ 63)%Z.
Fixpoint totals (z : Z) (ns : list Z) : list Z :=
  match ns with [] => [] | n :: ns' => as_i64 (z + n) :: totals (z + n) ns' end.
Definition sumZ (l : list Z) : Z := fold_right Z.add 0%Z l.

(** [l] is an interleaving of the sequences [ls]. *)
Inductive interleaves {A} : list (list A) -> list A -> Prop :=
  | il_nil ls : Forall (fun l => l = []) ls -> interleaves ls []
  | il_step ls1 x l ls2 m :
      interleaves (ls1 ++ l :: ls2) m -> interleaves (ls1 ++ (x :: l) :: ls2) (x :: m).

(** ** The commands of a history that address one key, and their replies *)
Fixpoint on_key (k : bytes) (h : list (N * cmd)) : list (N * cmd) :=
  match h with
  | [] => []
  | p :: h' => if decide (ckey (snd p) = k) then p :: on_key k h' else on_key k h'
  end.
Fixpoint replies_on (k : bytes) (h : list (N * cmd)) (rs : list (outcome resp)) : list (outcome resp) :=
  match h, rs with
  | p :: h', r :: rs' => if decide (ckey (snd p) = k) then r :: replies_on k h' rs' else replies_on k h' rs'
  | _, _ => []
  end.

(** Running a deterministic object through a list of operations. *)
Fixpoint run_ops {S op out : Type} (step : op -> S -> S * out) (ops : list op) (s : S) : S * list out :=
  match ops with
  | [] => (s, [])
  | o :: ops' => let '(s1, r) := step o s in let '(s2, rs) := run_ops step ops' s1 in (s2, r :: rs)
  end.
(** What the database stores for an object in state [s] ([None]: the key is absent) with deadline [e]. *)
Definition stored {S} (enc : S -> data) (e : N) (s : option S) : option (data * N) :=
  (fun x => (enc x, e)) <$> s.
