(** A list that clients share as a queue. *)
From Verif Require Export SpecAlone.

(** What a request appends to the list under [k]. *)
Definition pushes (k : bytes) (q : request) : list scalar :=
  match q with QLpush j xs | QRpush j xs => if decide (j = k) then xs else [] | _ => [] end.
(** What the reply to a request takes from the list under [k]. *)
Definition handed (k : bytes) (q : request) (r : frame) : list frame :=
  match q, r with
  | QLpop j _, FArray l | QRpop j _, FArray l => if decide (j = k) then l else []
  | _, _ => []
  end.
(** Requests that push or pop, and requests that leave [k] alone. *)
Definition queue_use (k : bytes) (q : request) : Prop :=
  (exists xs, q = QLpush k xs \/ q = QRpush k xs) \/ (exists n, q = QLpop k n \/ q = QRpop k n) \/ (forall sync, q <> QFlushall sync) /\ ~ In k (may_change q).
(** Those that push at the right end and pop at the left. *)
Definition fifo_use (k : bytes) (q : request) : Prop :=
  (exists xs, q = QRpush k xs) \/ (exists n, q = QLpop k n) \/ (forall sync, q <> QFlushall sync) /\ ~ In k (may_change q).
(** The list under [k] is [l] and has no deadline; there may be no such key if [l] is empty. *)
Definition list_at (m : store) (k : bytes) (l : list scalar) : Prop := m k = Some (DDeque l, 0%N) \/ m k = None /\ l = [].
(** What the clients have sent and been answered: each request with its reply. *)
Definition replies_to (x : clients) (i : nat) : list frame := match cs_conns x !! i with Some c => k_out c | None => [] end.
Definition exchanged (ins : list (list request)) (x : clients) : list (request * frame) :=
  flat_map (fun i => combine (nth i ins []) (replies_to x i)) (seq 0 (length ins)).
(** No client waits for a reply. *)
Definition all_idle (x : clients) : Prop := forall i c, cs_conns x !! i = Some c -> k_pc c = KIdle.
