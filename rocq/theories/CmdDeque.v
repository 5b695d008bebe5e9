(** component/dict/src/cmd/deque/*.rs (lists) and data_type/deque.rs *)
From Verif Require Export CmdKvp.

(** Rust's [Iterator::take] / [skip] / [drain(..n)] with a usize count (structural on the list, so
    that huge counts stay computable). Used by deque/range.rs, deque/pop.rs and sorted_set/range_by_*.rs. *)
Fixpoint take_N {A} (n : N) (l : list A) : list A :=
  match l with
  | [] => []
  | x :: l' => if (n =? 0)%N then [] else x :: take_N (n - 1) l'
  end.
(** See [take_N]. *)
Fixpoint drop_N {A} (n : N) (l : list A) : list A :=
  match l with
  | [] => []
  | x :: l' => if (n =? 0)%N then l else drop_N (n - 1) l'
  end.

(** data_type/deque.rs:24-42 ([Deque::shape]) and, textually identical,
    cmd/sorted_set/mod.rs:32-50 ([shape_rank]).  Result: half-open index interval.  For [len = 0] and a negative
    [start], [stop as usize + 1] is [usize::MAX + 1], which wraps to 0 in release. *)
Definition shape_rank (start stop : Z) (len : nat) : N * N :=
  let len := Z.of_nat len in
  let start := if (start <? 0)%Z then (start + len)%Z else start in
  let stop := if (stop <? 0)%Z then (stop + len)%Z else stop in
  if (len <=? start)%Z || (stop <? 0)%Z || (stop <? start)%Z then (0%N, 0%N)
  else
    let start := if (start <? 0)%Z then 0%Z else start in
    let stop := if (len <=? stop)%Z then (len - 1)%Z else stop in
    (Z.to_N start, Z.to_N (stop + 1)).

(** deque/push.rs:45-53, 67-75: [push_front] / [push_back] one element after the other. *)
Definition deque_push_all (left : bool) (es l : list scalar) : list scalar :=
  if left then fold_left (fun l e => e :: l) es l
  else fold_left (fun l e => l ++ [e]) es l.

(** deque/push.rs:35-90 *)
Definition deque_push_apply (now : N) (k : bytes) (es : list scalar) (left : bool) (nx : nx_xx) (d : dict)
  : dict * outcome lens :=
  let '(d1, o) := dict_get now k d in
  match o with
  | Some v =>
      match v_data v with
      | DDeque l =>
          match nx with
          | NxXx_Nx => (d1, OOk (Lens (length l) (length l)))
          | _ =>
              let l' := deque_push_all left es l in
              (dict_put k (with_data v (DDeque l')) d1, OOk (Lens (length l) (length l')))
          end
      | _ => (d1, OErr EWrongType)
      end
  | None =>
      match nx with
      | NxXx_Xx => (d1, OOk (Lens 0 0))
      | _ =>
          let l' := deque_push_all left es [] in
          (fst (dict_insert k (Value (DDeque l') 0 (new_visit_log now)) d1),
           OOk (Lens 0 (length l')))
      end
  end.

(** deque/pop.rs:26-42.  [count] is a usize. *)
Definition deque_pop_apply (now : N) (k : bytes) (count : N) (left : bool) (d : dict)
  : dict * outcome (list scalar) :=
  let '(d1, o) := dict_get now k d in
  match o with
  | Some v =>
      match v_data v with
      | DDeque l =>
          let len := N.of_nat (length l) in
          let count := N.min count len in
          if left then
            (dict_put k (with_data v (DDeque (drop_N count l))) d1, OOk (take_N count l))
          else
            (dict_put k (with_data v (DDeque (take_N (len - count) l))) d1,
             OOk (rev (drop_N (len - count) l)))
      | _ => (d1, OErr EWrongType)
      end
  | None => (d1, OOk [])
  end.

(** deque/range.rs:20-30: [deque.range(b..e)] *)
Definition deque_range_apply (now : N) (k : bytes) (start stop : Z) (d : dict)
  : dict * outcome (list scalar) :=
  let '(d1, o) := dict_get now k d in
  match o with
  | Some v =>
      match v_data v with
      | DDeque l =>
          let '(b, e) := shape_rank start stop (length l) in
          (d1, OOk (take_N (e - b) (drop_N b l)))
      | _ => (d1, OErr EWrongType)
      end
  | None => (d1, OOk [])
  end.

(** deque/len.rs:10-19 *)
Definition deque_len_apply (now : N) (k : bytes) (d : dict) : dict * outcome nat :=
  let '(d1, o) := dict_get now k d in
  match o with
  | Some v =>
      match v_data v with
      | DDeque l => (d1, OOk (length l))
      | _ => (d1, OErr EWrongType)
      end
  | None => (d1, OOk 0)
  end.
