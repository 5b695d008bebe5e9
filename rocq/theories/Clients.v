(** Many connections at once: component/server/src/lib.rs:163-168 spawns a task per connection, and the tasks
    interleave.  A step here is at most one critical section of a slot (slot.rs:81-88, 107-114, 155), one
    message sent (slot.rs:91, 125, 142), or one reply written.
    Simplifications: a connection is the list of requests that arrive on it (Frame.v and Request.v say how
    they are read); the expiry scan that follows FLUSHALL is in Expire.v. *)
From Verif Require Export Server Expire.

(** Where a connection stands, server/src/lib.rs:218-257. *)
Inductive kpc :=
  | KIdle                                                    (* about to read a request, lib.rs:220 *)
  | KRun (q : request) (cs : list cmd) (rs : list resp)      (* in [apply]: commands to go, responses so far *)
  | KSend (q : request) (cs : list cmd) (rs : list resp)     (* a slot has been unlocked: messages to send, *)
      (es : list exp_msg) (fs : list fwd_msg) (o : outcome resp)  (* and what the command returned, slot.rs:90-99, 116-150 *)
  | KFlush (ss : list N)                                     (* in flushall: slots to go, db/src/lib.rs:159-161 *)
  | KWrite (f : frame)                                       (* about to write the reply, lib.rs:255 *)
  | KEnd (h : hend).                                         (* the task has ended *)

(** A connection: requests to come, where it stands, replies written. server/src/lib.rs:205-257. *)
Record client := Client { k_in : list request; k_pc : kpc; k_out : list frame }.

(** The database, the two channels of db/src/lib.rs:47, 51, and the connections. *)
Record clients := Clients { cs_db : db; cs_exp : list exp_msg; cs_fwd : list fwd_msg; cs_conns : list client }.

(** [Frame::OwnedError(e.to_string())], server/src/lib.rs:252 *)
Definition error_reply (en : env) (q : request) (x : serr) : frame := FError (err_text en (payload_of q) x).

(** The next step of one connection; [now] is what the clock shows. server/src/lib.rs:218-257. *)
Definition conn_step (en : env) (now : N) (k : client) (b : db) (xs : list exp_msg) (fw : list fwd_msg)
  : option (client * db * list exp_msg * list fwd_msg) :=
  let 'Client ins pc out := k in
  let go ins pc := Some (Client ins pc out, b, xs, fw) in
  match pc with
  | KIdle =>
      match ins with
      | [] => None
      | q :: ins' =>
          match q with
          | QSyncsnapshot s => go ins' (KEnd (HSnapshot s))
          | _ => match plan_of now q with
                 | AErr x => go ins' (KWrite (error_reply en q x))
                 | APanic => go ins' (KEnd HPanic)
                 | AOk PFlush => go ins' (KFlush all_slots)
                 | AOk (PCmds cs) => go ins' (KRun q cs [])
                 end
          end
      end
  | KRun q (c :: cs) rs =>
      let '(b', o) := db_exec (e_ho en) now c b in
      Some (Client ins (KSend q cs rs (wo_exp o) (wo_fwd o) (wo_res o)) out, b', xs, fw)
  | KRun q [] rs =>
      go ins (match answer en now q rs with
              | AOk f => KWrite f
              | AErr x => KWrite (error_reply en q x)
              | APanic => KEnd HPanic
              end)
  | KSend q cs rs (m :: es) fs o => Some (Client ins (KSend q cs rs es fs o) out, b, xs ++ [m], fw)
  | KSend q cs rs [] (m :: fs) o => Some (Client ins (KSend q cs rs [] fs o) out, b, xs, fw ++ [m])
  | KSend q cs rs [] [] o =>
      go ins (match o with
              | OOk r => KRun q cs (rs ++ [r])
              | OErr x => KWrite (error_reply en q (SDict x))
              | OPanic => KEnd HPanic
              end)
  | KFlush (s :: ss) => Some (Client ins (KFlush ss) out, db_set s (slot_flush (b s)) b, xs, fw)
  | KFlush [] => go ins (KWrite frame_ok)
  | KWrite f => Some (Client ins KIdle (out ++ [f]), b, xs, fw)
  | KEnd _ => None
  end.

(** Connection [i] takes its next step at instant [now]. server/src/lib.rs:163-168. *)
Definition cstep (en : env) (ev : nat * N) (x : clients) : option clients :=
  match cs_conns x !! fst ev with
  | None => None
  | Some k =>
      match conn_step en (snd ev) k (cs_db x) (cs_exp x) (cs_fwd x) with
      | None => None
      | Some (k', b, xs, fw) => Some (Clients b xs fw (<[fst ev := k']> (cs_conns x)))
      end
  end.

(** An execution, server/src/lib.rs:163-168. *)
Fixpoint csteps (en : env) (evs : list (nat * N)) (x : clients) : option clients :=
  match evs with
  | [] => Some x
  | ev :: evs' => match cstep en ev x with Some x' => csteps en evs' x' | None => None end
  end.

(** Connections on which [ins] will arrive, on a database [b]. server/src/lib.rs:143-168. *)
Definition cs_start (b : db) (ins : list (list request)) : clients :=
  Clients b [] [] (map (fun l => Client l KIdle []) ins).
