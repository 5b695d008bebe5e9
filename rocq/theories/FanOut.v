(** component/db/src/forward/mod.rs and component/db/src/forward/connection.rs: the leader's fan-out of
    forwarded commands to the connected followers. *)
From Verif Require Export Forward.

(** One accepted connection: its channel (connection.rs:33), whether the receiving end still exists
    (it is dropped when run_connect_task returns, connection.rs:35-37), whether the sending end is still
    in the list (connection.rs:15), and what has been written to the socket, in order. *)
Record conn := Conn { cn_open : bool; cn_listed : bool; cn_queue : list fwd_msg; cn_out : list fwd_msg }.

(** connection.rs:33-34 *)
Definition conn_new : conn := Conn true true [] [].

(** connection.rs:44-52, the closure given to [retain]: [send] fails exactly when the receiver is gone. *)
Definition conn_push (m : fwd_msg) (c : conn) : conn :=
  if cn_listed c then
    if cn_open c then Conn true true (cn_queue c ++ [m]) (cn_out c)
    else Conn false false (cn_queue c) (cn_out c)
  else c.

(** connection.rs:87-89: take a message from the channel and write it. *)
Definition conn_write (c : conn) : option conn :=
  if cn_open c then
    match cn_queue c with
    | m :: q => Some (Conn true (cn_listed c) q (cn_out c ++ [m]))
    | [] => None
    end
  else None.
(** connection.rs:91-96: answer a ping. *)
Definition conn_ping (c : conn) : option conn :=
  if cn_open c then Some (Conn true (cn_listed c) (cn_queue c) (cn_out c ++ [msg_none])) else None.
(** connection.rs:88, 92-95: a read or write error, or end of file; the task ends and drops the receiver. *)
Definition conn_fail (c : conn) : option conn :=
  if cn_open c then Some (Conn false (cn_listed c) [] (cn_out c)) else None.

Inductive oevent :=
  | OJoin               (* a follower connects, connection.rs:31-38 *)
  | OPush (m : fwd_msg) (* forward/mod.rs:37-39: the next message of the channel *)
  | OWrite (i : nat)    (* the task of connection i forwards a message *)
  | OPing (i : nat)     (* the task of connection i answers a ping *)
  | OFail (i : nat).    (* the task of connection i ends *)

(** Applies a step of the task of connection [i]. forward/connection.rs: one task per connection. *)
Definition at_conn (i : nat) (g : conn -> option conn) (cs : list conn) : option (list conn) :=
  match nth_error cs i with
  | Some c =>
      match g c with
      | Some c' => Some (firstn i cs ++ c' :: skipn (Datatypes.S i) cs)
      | None => None
      end
  | None => None
  end.

(** forward/mod.rs:28-40 and connection.rs; [None]: the event is not enabled. *)
Definition ostep (ev : oevent) (cs : list conn) : option (list conn) :=
  match ev with
  | OJoin => Some (cs ++ [conn_new])
  | OPush m => Some (map (conn_push m) cs)
  | OWrite i => at_conn i conn_write cs
  | OPing i => at_conn i conn_ping cs
  | OFail i => at_conn i conn_fail cs
  end.
(** An execution of forward/mod.rs and forward/connection.rs. *)
Fixpoint osteps (evs : list oevent) (cs : list conn) : option (list conn) :=
  match evs with
  | [] => Some cs
  | ev :: evs' => match ostep ev cs with Some cs' => osteps evs' cs' | None => None end
  end.
