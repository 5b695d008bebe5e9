(** component/db/src/expire.rs: the expiry queue, the task that receives notifications, the task that
    purges, and the scan after FLUSHALL, together with everything that sends notifications
    (slot.rs, slot/replica_update.rs), as a transition system whose steps are the critical sections. *)
From Verif Require Export Replica.

(** ** The queue, a [BTreeSet<Entry>] (expire.rs:41), as a strictly increasing list *)

(** expire.rs:16-23: the derived order, lexicographic in declaration order. *)
Definition entry_cmp (a b : entry) : comparison :=
  match N.compare (en_at a) (en_at b) with
  | Eq => match N.compare (en_slot a) (en_slot b) with
          | Eq => bytes_cmp (en_key a) (en_key b)
          | c => c
          end
  | c => c
  end.
(** [BTreeSet::insert], used by expire.rs:72, 96 *)
Fixpoint q_insert (e : entry) (q : list entry) : list entry :=
  match q with
  | [] => [e]
  | x :: q' => match entry_cmp e x with
               | Lt => e :: q
               | Eq => q
               | Gt => x :: q_insert e q'
               end
  end.
(** [BTreeSet::remove], used by expire.rs:82, 143 *)
Definition q_remove (e : entry) (q : list entry) : list entry :=
  List.filter (fun x => negb (bool_decide (x = e))) q.

(** expire.rs:59-101, the body of the receive loop: the new queue and whether [notify_one] is called. *)
Definition recv (m : exp_msg) (q : list entry) : list entry * bool :=
  match m with
  | XClear slot => (List.filter (fun e => negb (en_slot e =? slot)%N) q, false)
  | XUpdate slot u =>
      let '(q1, note) :=
        if (0 <? eu_new u)%N then
          (q_insert (Entry (eu_new u) slot (eu_key u)) q,
           match q with [] => true | ne :: _ => (eu_new u <? en_at ne)%N end)
        else (q, false) in
      (if (0 <? eu_before u)%N then q_remove (Entry (eu_before u) slot (eu_key u)) q1 else q1, note)
  | XBatchAdd es => (fold_left (fun q e => q_insert e q) es q, true)
  end.

(** expire.rs:177-186, the closure given to [retain]. *)
Definition scan_entry (now : N) (e : entry) (d : dict) : dict * bool :=
  let '(d1, o) := dict_get now (en_key e) d in
  (d1, match o with Some v => (v_exp v =? en_at e)%N | None => false end).

(** ** The transition system *)

(** Where the purge task stands (expire.rs:105-173). *)
Inductive ppc :=
  | PStart                        (* about to read the clock, expire.rs:129 *)
  | PLoop (now : N)               (* about to lock the queue, expire.rs:133 *)
  | PEntry (now : N) (e : entry)  (* entry popped, about to lock the slot, expire.rs:150 *)
  | PNext (next : N)              (* purge_expired_keys returned, expire.rs:112 *)
  | PIdle                         (* waiting for a notification, expire.rs:115 *)
  | PSleep (w : N).               (* in the select: until instant w or a notification, expire.rs:119-123 *)

(** What a thread that is past its critical section, or in the middle of a longer operation, still has
    to do. *)
Inductive act :=
  | ASend (m : exp_msg)           (* expire_sender.send: slot.rs:50, 68, 125; replica_update.rs:75 *)
  | ASwap (slot : N) (d : dict)   (* slot.rs:66 *)
  | AFlush (slot : N)             (* lib.rs:160, slot.rs:162-171 *)
  | AScan.                        (* lib.rs:163-165, expire.rs:177: take the queue lock and scan *)

Record world := World {
  w_clock : N;                    (* what now_timestamp_ms() returns *)
  w_db : db;                      (* lib.rs:35 *)
  w_queue : list entry;           (* lib.rs:36 *)
  w_scan : option (list entry);   (* the queue lock is held by scan_all: entries still to be visited *)
  w_chan : list exp_msg;          (* the flume channel, lib.rs:47 *)
  w_threads : list (list act);
  w_note : bool;                  (* the receive task is about to call notify_one, expire.rs:89-91, 99 *)
  w_permit : bool;                (* the permit stored in the Notify *)
  w_purge : ppc }.

(** Server start: lib.rs:45-72 without a placement driver. *)
Definition w_start (clock : N) : world :=
  World clock db_empty [] None [] [] false false PStart.

Inductive event :=
  | ETick (now : N)                              (* the system clock changes *)
  | ECmd (c : cmd)                               (* a client command, slot.rs:76-159 *)
  | EForward (slot id : N) (c : option wreq)     (* a forwarded command, replica_update.rs *)
  | EReplace (slot : N) (d : dict)               (* a call of replace_dict, slot.rs:48 *)
  | EFlushall                                    (* a call of flushall, lib.rs:158 *)
  | EThread (i : nat)                            (* thread i takes its next step *)
  | EScan                                        (* scan_all visits its next entry, or ends *)
  | ERecv                                        (* the receive task processes a message *)
  | ENote                                        (* the receive task calls notify_one *)
  | EPurge                                       (* the purge task takes its next step *)
  | EWake.                                       (* the timer of the sleeping purge task fires *)

(** The sends that follow a critical section (slot.rs:116-127). *)
Definition spawn (ms : list exp_msg) (ts : list (list act)) : list (list act) :=
  match ms with [] => ts | _ => ts ++ [map ASend ms] end.

(** Replaces (or ends) thread [i] of [w_threads]; the threads are those of slot.rs:48-171. *)
Definition with_thread (i : nat) (rest : list act) (ts : list (list act)) : list (list act) :=
  match rest with
  | [] => firstn i ts ++ skipn (Datatypes.S i) ts
  | _ => firstn i ts ++ rest :: skipn (Datatypes.S i) ts
  end.

(** [&self.slots] in the order of the loop of lib.rs:159. *)
Fixpoint slots_from (i : N) (n : nat) : list N :=
  match n with O => [] | Datatypes.S n' => i :: slots_from (i + 1) n' end.
(** lib.rs:52-55 *)
Definition all_slots : list N := slots_from 0 (N.to_nat slot_size).

(** One step of the purge task, expire.rs:105-173. *)
Definition purge_step (x : world) : option world :=
  let 'World t b q sc ch ts nt pm pc := x in
  let go b q pm pc := Some (World t b q sc ch ts nt pm pc) in
  match pc with
  | PStart => go b q pm (PLoop t)
  | PLoop now =>
      (* expire.rs:132-145, one critical section on the queue *)
      match sc with
      | Some _ => None
      | None =>
          match q with
          | [] => go b q pm (PNext 0)
          | e :: _ =>
              if (now <? en_at e)%N then go b q pm (PNext (en_at e))
              else go b (q_remove e q) pm (PEntry now e)
          end
      end
  | PEntry now e => go (db_set (en_slot e) (purge_entry t e (b (en_slot e))) b) q pm (PLoop now)
  | PNext next =>
      (* expire.rs:112-124; with next = 0 the clock read afterwards decides nothing *)
      if (next =? 0)%N then go b q pm PIdle
      else if (t <? next)%N then go b q pm (PSleep next)
      else go b q pm PStart
  | PIdle | PSleep _ =>
      (* a stored permit completes [notified()] *)
      if pm then go b q false PStart else None
  end.

(** The transition function; [None]: the event is not enabled.  [ho]: iteration order of the hash map in
    [replace_dict]. expire.rs, slot.rs, slot/replica_update.rs. *)
Definition step (ho : horder) (ev : event) (x : world) : option world :=
  let 'World t b q sc ch ts nt pm pc := x in
  match ev with
  | ETick now => Some (World now b q sc ch ts nt pm pc)
  | ECmd (CWrite w) =>
      let '(b', o) := db_write t w b in
      Some (World t b' q sc ch (spawn (wo_exp o) ts) nt pm pc)
  | ECmd (CRead r) => Some (World t (fst (db_read ho t r b)) q sc ch ts nt pm pc)
  | EForward slot id c =>
      let '(d', _, ms) := process_forward slot t id c (b slot) in
      Some (World t (db_set slot d' b) q sc ch (spawn ms ts) nt pm pc)
  | EReplace slot d =>
      Some (World t b q sc ch
              (ts ++ [[ASend (XClear slot); ASwap slot d; ASend (XBatchAdd (dict_entries ho slot d))]])
              nt pm pc)
  | EFlushall => Some (World t b q sc ch (ts ++ [map AFlush all_slots ++ [AScan]]) nt pm pc)
  | EThread i =>
      match nth_error ts i with
      | Some (ASend m :: r) => Some (World t b q sc (ch ++ [m]) (with_thread i r ts) nt pm pc)
      | Some (ASwap slot d :: r) => Some (World t (db_set slot d b) q sc ch (with_thread i r ts) nt pm pc)
      | Some (AFlush slot :: r) =>
          Some (World t (db_set slot (slot_flush (b slot)) b) q sc ch (with_thread i r ts) nt pm pc)
      | Some (AScan :: r) =>
          match sc with
          | Some _ => None
          | None => Some (World t b q (Some q) ch (with_thread i r ts) nt pm pc)
          end
      | _ => None
      end
  | EScan =>
      match sc with
      | None => None
      | Some [] => Some (World t b q None ch ts nt pm pc)
      | Some (e :: es) =>
          let '(d', keep) := scan_entry t e (b (en_slot e)) in
          Some (World t (db_set (en_slot e) d' b) (if keep then q else q_remove e q) (Some es)
                  ch ts nt pm pc)
      end
  | ERecv =>
      match sc, nt, ch with
      | None, false, m :: ch' =>
          let '(q', note) := recv m q in Some (World t b q' sc ch' ts note pm pc)
      | _, _, _ => None
      end
  | ENote => if nt then Some (World t b q sc ch ts false true pc) else None
  | EPurge => purge_step x
  | EWake => match pc with
             | PSleep _ => Some (World t b q sc ch ts nt pm PStart)
             | _ => None
             end
  end.

(** An execution: the events in the order in which they take effect. expire.rs:44-173. *)
Fixpoint steps (ho : horder) (evs : list event) (x : world) : option world :=
  match evs with
  | [] => Some x
  | ev :: evs' => match step ho ev x with Some x' => steps ho evs' x' | None => None end
  end.
