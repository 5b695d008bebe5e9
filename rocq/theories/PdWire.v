(** What servers and placement driver say to each other: component/pd/src/connect.rs, component/pd/src/cmd.rs,
    component/common/src/pd_message.rs, component/db/src/pd_handle/mod.rs.
    A socket address is a number, as in Pd.v: [n < 2^48] is the IPv4 address [n / 2^16] with port [n mod 2^16];
    [2^48 + m] is the IPv6 address with port [m mod 2^16], address [m / 2^16 mod 2^128] and flow label and scope
    id [m / 2^144].
    Simplification: the text of an error reply is an argument, a function of the request. *)
From Verif Require Export Request Bincode Pd.

(** Most significant byte first. std::net::Ipv4Addr::octets. *)
Definition put_be (n : nat) (x : N) : bytes := rev (put_le n x).
(** [n] bytes, the most significant one first; see [put_be]. *)
Fixpoint take_bytes (n : nat) : dec bytes :=
  match n with
  | O => dret []
  | S m => b <~ get_byte;; r <~ take_bytes m;; dret (b :: r)
  end.
(** The inverse of [put_be]. *)
Definition get_be (n : nat) : dec N :=
  s <~ take_bytes n;; match get_le n (rev s) with DOk x _ => dret x | DErr | DPanic => dfail end.

(** pd_message.rs:53-54: serde's SocketAddr in a binary format is the index of the variant, the octets and the
    port; flow label and scope id are not sent. *)
Definition put_addr (a : N) : bytes :=
  if (a <? 2 ^ 48)%N then put_u32 0 ++ put_be 4 (a / 2 ^ 16) ++ put_u16 (a mod 2 ^ 16)
  else let m := (a - 2 ^ 48)%N in put_u32 1 ++ put_be 16 ((m / 2 ^ 16) mod 2 ^ 128) ++ put_u16 (m mod 2 ^ 16).
(** pd_message.rs:53-54 *)
Definition get_addr : dec N :=
  t <~ get_u32;;
  if (t =? 0)%N then ip <~ get_be 4;; po <~ get_u16;; dret (ip * 2 ^ 16 + po)%N
  else if (t =? 1)%N then ip <~ get_be 16;; po <~ get_u16;; dret (2 ^ 48 + ip * 2 ^ 16 + po)%N
  else dfail.

(** pd_message.rs:22-26 *)
Definition put_role (r : role) : bytes := put_u32 (match r with Leader => 0 | Follower => 1 end).
(** pd_message.rs:22-26 *)
Definition get_role : dec role :=
  t <~ get_u32;; if (t =? 0)%N then dret Leader else if (t =? 1)%N then dret Follower else dfail.
(** pd_message.rs:50-55 *)
Definition put_leader (l : leader_info) : bytes := put_u64 (li_id l) ++ put_addr (li_server l) ++ put_addr (li_forward l).
(** pd_message.rs:50-55 *)
Definition get_leader : dec leader_info :=
  i <~ get_u64;; s <~ get_addr;; f <~ get_addr;; dret (LeaderInfo i s f).
(** pd_message.rs:41-48 *)
Definition put_status (s : status) : bytes :=
  put_u64 (st_server s) ++ put_u64 (st_group s) ++ put_role (st_role s) ++ put_option put_leader (st_leader s).
(** pd_message.rs:41-48 *)
Definition get_status : dec status :=
  i <~ get_u64;; g <~ get_u64;; r <~ get_role;; l <~ get_option get_leader;; dret (Status i g r l).
(** pd_message.rs:58-63: group, server address, forward address. *)
Definition put_init (x : N * N * N) : bytes := let '(g, s, f) := x in put_u64 g ++ put_addr s ++ put_addr f.
(** pd_message.rs:58-63 *)
Definition get_init : dec (N * N * N) := g <~ get_u64;; s <~ get_addr;; f <~ get_addr;; dret (g, s, f).

(** pd_message.rs:9 *)
Definition name_init : bytes := bs "pd_sever_init".
(** pd_message.rs:12 *)
Definition name_beat : bytes := bs "pd_sever_heartbeat".
(** pd_message.rs:18 *)
Definition name_group : bytes := bs "pd_crate_group".

(** db/src/pd_handle/mod.rs:37-46 *)
Definition init_frame (gid sa fa : N) : frame := FArray [FBulk name_init; FBulk (put_init (gid, sa, fa))].
(** db/src/pd_handle/mod.rs:73-77 *)
Definition beat_frame (st : status) : frame := FArray [FBulk name_beat; FBulk (put_status st)].

(** pd/src/cmd.rs:8-25 and connect.rs:63-71 with the name already read; [None] is [Err(_)]. *)
Definition pd_apply (now : N) (name : bytes) (c : cursor) (p : pd) : pd * option frame :=
  if bool_decide (name = name_init) then
    match next as_bytes c with
    | QOk b _ =>
        match deserialize get_init b with
        | OOk (g, s, f) => let '(p', o) := server_init now g s f p in (p', option_map (fun st => FBulk (put_status st)) o)
        | _ => (p, None)
        end
    | _ => (p, None)
    end
  else if bool_decide (name = name_beat) then
    match next as_bytes c with
    | QOk b _ =>
        match deserialize get_status b with
        | OOk st => let '(p', o) := server_heartbeat now st p in (p', Some (FBulk (put_option put_status o)))
        | _ => (p, None)
        end
    | _ => (p, None)
    end
  else if bool_decide (name = name_group) then (create_group p, Some frame_ok)
  else (p, Some frame_ok).

(** connect.rs:50-60, one turn of the loop; [None]: Parse::new fails and the connection ends. *)
Definition pd_serve (txt : frame -> bytes) (now : N) (f : frame) (p : pd) : pd * option frame :=
  match (match f with FArray l => Some l | FPing => Some [FPing] | _ => None end) with
  | None => (p, None)
  | Some c =>
      match next as_str c with
      | QOk n c1 =>
          let '(p', o) := pd_apply now (lowercase n) c1 p in
          (p', Some (match o with Some r => r | None => FError (txt f) end))
      | _ => (p, Some (FError (txt f)))
      end
  end.

(** connect.rs:48-61: a connection; [oth i] is what the others do before request number [i].  The boolean is
    whether it ended because the peer closed it. *)
Fixpoint pd_handler (fuel : nat) (txt : frame -> bytes) (clock : nat -> N) (oth : nat -> pd -> pd) (chunks : list bytes)
  (buf : bytes) (p : pd) : pd * list frame * bool :=
  match fuel with
  | O => (p, [], false)
  | S fuel' =>
      match read_frame chunks buf with
      | inr EndClean => (p, [], true)
      | inr _ => (p, [], false)
      | inl (f, buf', cs) =>
          match pd_serve txt (clock 0%nat) f (oth 0%nat p) with
          | (p', None) => (p', [], false)
          | (p', Some r) =>
              let '(p2, rs, h) := pd_handler fuel' txt (fun i => clock (S i)) (fun i => oth (S i)) cs buf' p' in (p2, r :: rs, h)
          end
      end
  end.

(** db/src/pd_handle/mod.rs:58-67 with the decoding of lines 47 and 78: what a server makes of the bytes that
    follow.  [None]: an error, which ends the process (init) or the heartbeat task. *)
Definition read_answer {A} (g : dec A) (chunks : list bytes) (buf : bytes) : option (A * bytes * list bytes) :=
  match read_frame chunks buf with
  | inl (FBulk b, buf', cs) => match deserialize g b with OOk a => Some (a, buf', cs) | _ => None end
  | _ => None
  end.

(** Everything that reaches the driver, from whatever connection. pd/src/lib.rs:18-29. *)
Inductive devent := DFrame (now : N) (f : frame) | DCheck (now : N).
(** connect.rs:50-60; status.rs:146-180 *)
Definition dstep (txt : frame -> bytes) (p : pd) (ev : devent) : pd :=
  match ev with
  | DFrame now f => fst (pd_serve txt now f p)
  | DCheck now => survival_check now p
  end.

(** ** Restarting the driver *)
(** Nothing is written to disk (status.rs:12-20); the connections break, and with them the heartbeat tasks
    (db/src/pd_handle/mod.rs:49-53). *)
Definition restart (c : cluster) : cluster :=
  Cluster pd_empty (map (fun n => Node (nd_given n) (nd_latest n) (nd_target n) (nd_rx n) None false) (cl_nodes c)).
