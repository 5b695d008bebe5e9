(** component/server/src/limit.rs and the accept loop of component/server/src/lib.rs.
    Simplifications: tokio's semaphore is a counter ([acquire] completes when it is positive); a handler is
    its existence (what it does is in Server.v); the end of a handler, for whatever reason, is one step. *)
From Verif Require Export Bytes.

(** Where [Listener::run] stands, lib.rs:134-202. *)
Inductive lphase :=
  | LWait                  (* acquire().await, lib.rs:138, limit.rs:27 *)
  | LAccept (backoff : N)  (* listener.accept().await, lib.rs:186 *)
  | LSleep (backoff : N)   (* sleep, lib.rs:197 *)
  | LDown.                 (* lib.rs:89-116: [run] has returned *)

(** Why a handler ends. *)
Inductive ending :=
  | HClosed                (* end of stream, lib.rs:227 *)
  | HError                 (* an error of the connection or of the protocol, lib.rs:220, 232, 255 *)
  | HPanic                 (* a panic: the task is dropped while unwinding *)
  | HSnapshot.             (* SYNCSNAPSHOT, lib.rs:237-240: the handler is consumed by [apply] *)

(** The counter of the semaphore, the listener, and the handlers alive. limit.rs:8-36, lib.rs:134-203. *)
Record limits := Limits { lm_permits : N; lm_phase : lphase; lm_handlers : list N; lm_next : N }.

(** limit.rs:9-11 and lib.rs:91-95 *)
Definition limit_new (max : N) : limits := Limits max LWait [] 0.

Inductive levent :=
  | LAcquire                      (* lib.rs:138 *)
  | LAccepted                     (* lib.rs:143-168: a socket, a handler with a clone of the Limit, a task *)
  | LRefused                      (* lib.rs:188-192: accept fails *)
  | LWake                         (* lib.rs:197-200 *)
  | LShutdown                     (* lib.rs:110: the server is dropped *)
  | HEnd (h : N) (how : ending).  (* the Limit in the handler is dropped, limit.rs:31-36 *)

(** The transition function; [None]: the event is not enabled. *)
Definition lstep (ev : levent) (x : limits) : option limits :=
  let 'Limits p ph hs nx := x in
  match ev, ph with
  | LAcquire, LWait => if (p =? 0)%N then None else Some (Limits (p - 1) (LAccept 1) hs nx)
  | LAccepted, LAccept _ => Some (Limits p LWait (nx :: hs) (nx + 1))
  | LRefused, LAccept b =>
      (* lib.rs:189: [run] returns, and with it the server is dropped (limit.rs:31-36) *)
      if (64 <? b)%N then Some (Limits (p + 1) LDown hs nx) else Some (Limits p (LSleep b) hs nx)
  | LWake, LSleep b => Some (Limits p (LAccept (2 * b)) hs nx)
  | LShutdown, LDown => None
  | LShutdown, _ => Some (Limits (p + 1) LDown hs nx)
  | HEnd h _, _ =>
      if existsb (N.eqb h) hs then Some (Limits (p + 1) ph (List.filter (fun x => negb (N.eqb h x)) hs) nx) else None
  | _, _ => None
  end.

(** An execution. server/src/lib.rs:134-203. *)
Fixpoint lsteps (evs : list levent) (x : limits) : option limits :=
  match evs with
  | [] => Some x
  | ev :: evs' => match lstep ev x with Some x' => lsteps evs' x' | None => None end
  end.
