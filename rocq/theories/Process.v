(** The whole process, from the bytes that arrive to the bytes that are sent: the accept loop (Limit.v), sockets and the
    reading of frames (Frame.v, Request.v), and the server behind them (Leader.v).
    Simplifications: the bytes of one reply leave in one step, or a prefix of them if writing fails; what a client has sent
    arrives in non-empty pieces of any size; as in Leader.v otherwise. The socket that sent SYNCSNAPSHOT is left to
    Snapshot.v. *)
From Verif Require Export Leader.
From Verif Require Limit.

(** One accepted socket. common/src/connection/mod.rs:12-28, server/src/lib.rs:48-75. *)
Record sock := Sock {
  so_wire : list bytes;       (* arrived, not yet read *)
  so_fin : bool;              (* the peer will send nothing more *)
  so_buf : bytes;             (* read_buffer behind [advance] *)
  so_end : option hend;       (* [Handler::run] has returned because of the socket, lib.rs:220-232, 255 *)
  so_out : bytes }.           (* bytes written *)

(** server/src/lib.rs:25-46: socket [i] is connection [i] of the server behind. *)
Record process := Process { pr_ld : leader; pr_socks : list sock; pr_lim : Limit.limits }.

Inductive pevent :=
  | PListen (e : Limit.levent)       (* the accept loop waits, fails, sleeps, ends: lib.rs:134-203 *)
  | PAccept                          (* lib.rs:143-168 *)
  | PArrive (i : nat) (c : bytes)    (* the network delivers *)
  | PFin (i : nat)                   (* the peer closes its side *)
  | PRead (i : nat)                  (* handler [i] in read_frame, connection/mod.rs:46-70 *)
  | PReset (i : nat)                 (* reading fails, connection/mod.rs:62 *)
  | PConn (i : nat)                  (* handler [i] executes or replies, lib.rs:229-255 *)
  | PBreak (i : nat) (n : nat)       (* writing fails after [n] bytes, lib.rs:255 *)
  | PDrop (i : nat)                  (* the handler is dropped, limit.rs:31-36 *)
  | PTask (u : turn).                (* background tasks, db/src/lib.rs:45-72 *)

(** A handler ends for a reason that has to do with its socket. lib.rs:220-232, 255. *)
Definition sock_ends (h : hend) (s : sock) : sock := Sock (so_wire s) (so_fin s) (so_buf s) (Some h) (so_out s).
(** [read_buffer], lib.rs:220; connection/mod.rs:46-70. *)
Definition with_buf (b : bytes) (s : sock) : sock := Sock (so_wire s) (so_fin s) b (so_end s) (so_out s).
(** [write_all], lib.rs:255. *)
Definition with_out (b : bytes) (s : sock) : sock := Sock (so_wire s) (so_fin s) (so_buf s) (so_end s) (so_out s ++ b).

(** One turn of the loop of connection/mod.rs:52-69 and, if there is a frame, lib.rs:225-232. *)
Definition read_step (s : sock) : option (sock * option request) :=
  match parse (so_buf s) with
  | POk f rest =>
      match from_frame f with
      | Some q => Some (with_buf rest s, Some q)
      | None => Some (sock_ends HError (with_buf rest s), None)
      end
  | PError => Some (sock_ends HError s, None)
  | PIncomplete =>
      match so_wire s with
      | c :: cs => Some (Sock cs (so_fin s) (so_buf s ++ c) (so_end s) (so_out s), None)
      | [] => if so_fin s then Some (sock_ends (if bool_decide (so_buf s = []) then HClean else HError) s, None) else None
      end
  end.

(** The request that was read. lib.rs:225-232. *)
Definition give (q : request) (k : client) : client := Client (k_in k ++ [q]) (k_pc k) (k_out k).
(** The connections behind the sockets. lib.rs:143-168. *)
Definition with_conns (g : list client -> list client) (x : leader) : leader :=
  let 'Leader (Clients b xs fw ks) q sc n nt pm pc := x in Leader (Clients b xs fw (g ks)) q sc n nt pm pc.
(** What limit.rs:31-36 sees. *)
Definition ending_of (h : hend) : Limit.ending :=
  match h with HClean => Limit.HClosed | HError => Limit.HError | HPanic => Limit.HPanic | HSnapshot _ => Limit.HSnapshot end.
(** How a handler has ended, if it has. lib.rs:163-168. *)
Definition over (s : sock) (k : client) : option hend :=
  match so_end s with Some h => Some h | None => match k_pc k with KEnd h => Some h | _ => None end end.

(** One step of the process at instant [fst ev]. server/src/lib.rs:89-257. *)
Definition pstep (en : env) (ev : N * pevent) (x : process) : option process :=
  let 'Process ld ss lm := x in
  match snd ev with
  | PListen e =>
      match e with
      | Limit.LAccepted | Limit.HEnd _ _ => None
      | _ => option_map (Process ld ss) (Limit.lstep e lm)
      end
  | PAccept =>
      option_map (Process (with_conns (fun ks => ks ++ [Client [] KIdle []]) ld) (ss ++ [Sock [] false [] None []]))
        (Limit.lstep Limit.LAccepted lm)
  | PArrive i c =>
      match ss !! i with
      | Some s =>
          if so_fin s || bool_decide (c = []) then None
          else Some (Process ld (<[i := Sock (so_wire s ++ [c]) false (so_buf s) (so_end s) (so_out s)]> ss) lm)
      | None => None
      end
  | PFin i =>
      match ss !! i with
      | Some s => Some (Process ld (<[i := Sock (so_wire s) true (so_buf s) (so_end s) (so_out s)]> ss) lm)
      | None => None
      end
  | PRead i =>
      match ss !! i, cs_conns (ld_cl ld) !! i with
      | Some s, Some k =>
          match so_end s, k_pc k, k_in k with
          | None, KIdle, [] =>
              match read_step s with
              | Some (s', None) => Some (Process ld (<[i := s']> ss) lm)
              | Some (s', Some q) => Some (Process (with_conns (alter (give q) i) ld) (<[i := s']> ss) lm)
              | None => None
              end
          | _, _, _ => None
          end
      | _, _ => None
      end
  | PReset i =>
      match ss !! i, cs_conns (ld_cl ld) !! i with
      | Some s, Some k =>
          match so_end s, k_pc k, k_in k, parse (so_buf s) with
          | None, KIdle, [], PIncomplete => Some (Process ld (<[i := sock_ends HError s]> ss) lm)
          | _, _, _, _ => None
          end
      | _, _ => None
      end
  | PConn i =>
      match ss !! i, cs_conns (ld_cl ld) !! i with
      | Some s, Some k =>
          match so_end s, leader_step en (fst ev, LConn i) ld with
          | None, Some ld' =>
              Some (Process ld' (<[i := with_out (match k_pc k with KWrite f => write f | _ => [] end) s]> ss) lm)
          | _, _ => None
          end
      | _, _ => None
      end
  | PBreak i n =>
      match ss !! i, cs_conns (ld_cl ld) !! i with
      | Some s, Some k =>
          match so_end s, k_pc k with
          | None, KWrite f => Some (Process ld (<[i := sock_ends HError (with_out (firstn n (write f)) s)]> ss) lm)
          | _, _ => None
          end
      | _, _ => None
      end
  | PDrop i =>
      match ss !! i, cs_conns (ld_cl ld) !! i with
      | Some s, Some k =>
          match over s k with
          | Some h => option_map (Process ld ss) (Limit.lstep (Limit.HEnd (N.of_nat i) (ending_of h)) lm)
          | None => None
          end
      | _, _ => None
      end
  | PTask u =>
      match u with
      | LConn _ => None
      | _ => option_map (fun ld' => Process ld' ss lm) (leader_step en (fst ev, u) ld)
      end
  end.

(** An execution. server/src/lib.rs:89-257. *)
Fixpoint psteps (en : env) (evs : list (N * pevent)) (x : process) : option process :=
  match evs with
  | [] => Some x
  | ev :: evs' => match pstep en ev x with Some x' => psteps en evs' x' | None => None end
  end.

(** The process has started: nobody is connected. server/src/lib.rs:89-96. *)
Definition pr_start (b : db) (max : N) : process := Process (leader_start b []) [] (Limit.limit_new max).
