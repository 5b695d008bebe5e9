(** The wire protocol: component/common/src/connection/parse/frame.rs and
    component/common/src/connection/mod.rs. *)
From Verif Require Export Bytes.

(** frame.rs:18-33.  The Owned variants differ from the borrowed ones only in who owns the bytes; they are
    merged ([OwnedSimple], [OwnedStringSimple] into [FSimple], [OwnedBulk] into [FBulk], [OwnedError]
    into [FError]). *)
Inductive frame :=
  | FPing
  | FPong
  | FSimple (b : bytes)
  | FBulk (b : bytes)
  | FError (b : bytes)
  | FInteger (z : Z)
  | FNull
  | FArray (l : list frame)
  | FNoRes.

(** frame.rs:38-40 *)
Definition frame_ok : frame := FSimple (bs "OK").

(** ** nom 7, streaming combinators ([nom::Err::Failure] is never produced) *)
Inductive pres (A : Type) := POk (a : A) (rest : bytes) | PIncomplete | PError.
Arguments POk {A} a rest. Arguments PIncomplete {A}. Arguments PError {A}.
(** A nom parser (frame.rs:86-170): input to result. *)
Definition parser (A : Type) := bytes -> pres A.

(** Sequencing with [?]. frame.rs:87-170. *)
Definition pbind {A B} (f : parser A) (g : A -> parser B) : parser B :=
  fun i => match f i with POk a r => g a r | PIncomplete => PIncomplete | PError => PError end.
Notation "x <- f ;; g" := (pbind f (fun x => g)) (at level 100, f at next level, right associativity).
(** [Ok((i, x))] (frame.rs:92). *)
Definition pret {A} (a : A) : parser A := fun i => POk a i.

(** nom::bytes::streaming::tag (used at frame.rs:88-156): a mismatch is an error, a proper prefix is incomplete. *)
Fixpoint ptag (t : bytes) : parser unit :=
  fun i =>
    match t, i with
    | [], _ => POk tt i
    | _ :: _, [] => PIncomplete
    | a :: t', b :: i' => if byte_eq_dec a b then ptag t' i' else PError
    end.

(** The predicate of every take_while: [|c| c != b'\r' && c != b'\n'] (frame.rs:89, 99, 109, 120, 137) *)
Definition not_crlf (c : byte) : bool :=
  negb (bool_decide (c = CR)) && negb (bool_decide (c = LF)).

(** nom::bytes::streaming::take_while: without a terminating byte in sight the input is incomplete. *)
Fixpoint take_line (i : bytes) : pres bytes :=
  match i with
  | [] => PIncomplete
  | c :: i' =>
      if not_crlf c then
        match take_line i' with
        | POk l r => POk (c :: l) r
        | PIncomplete => PIncomplete
        | PError => PError
        end
      else POk [] i
  end.
(** nom::bytes::streaming::take_while1: at least one byte. *)
Definition take_line1 : parser bytes :=
  fun i => match i with
           | c :: _ => if not_crlf c then take_line i else PError
           | [] => PIncomplete
           end.
(** nom::bytes::streaming::take_while_m_n(n, n, |_| true) (frame.rs:128) *)
Definition take_n (n : N) : parser bytes :=
  fun i => if (N.of_nat (length i) <? n)%N then PIncomplete
           else POk (firstn (N.to_nat n) i) (skipn (N.to_nat n) i).

(** nom::branch::alt: only an error moves on to the next alternative. *)
Definition palt {A} (f g : parser A) : parser A :=
  fun i => match f i with PError => g i | r => r end.

(** [atoi::atoi::<i64>(int).unwrap_or(0)] (frame.rs:110, 121, 138) *)
Definition atoi_or_0 (t : bytes) : Z := match atoi_i64 t with Some z => z | None => 0%Z end.

(** frame.rs:86-93 *)
Definition parse_simple : parser frame :=
  _ <- ptag (bs "+");; l <- take_line;; _ <- ptag CRLF;; pret (FSimple l).
(** frame.rs:96-103 *)
Definition parse_error : parser frame :=
  _ <- ptag (bs "-");; l <- take_line1;; _ <- ptag CRLF;; pret (FError l).
(** frame.rs:106-115 *)
Definition parse_int : parser frame :=
  _ <- ptag (bs ":");; l <- take_line1;; _ <- ptag CRLF;; pret (FInteger (atoi_or_0 l)).
(** frame.rs:118-132.  [len as usize] of a non-negative i64. *)
Definition parse_bulk : parser frame :=
  _ <- ptag (bs "$");; l <- take_line1;; _ <- ptag CRLF;;
  (if (atoi_or_0 l <? 0)%Z then pret FNull
   else d <- take_n (Z.to_N (atoi_or_0 l));; _ <- ptag CRLF;; pret (FBulk d)).

(** The loop of frame.rs:144-150.  Every element consumes at least one byte, so the length of the input
    bounds the number of successful iterations and the fuel [S (length i)] never runs out
    (FrameFacts.elems_fuel). *)
Fixpoint parse_elems (fuel : nat) (g : parser frame) (n : N) (i : bytes) : pres (list frame) :=
  if (n =? 0)%N then POk [] i
  else match fuel with
       | O => PIncomplete
       | S fuel' =>
           match g i with
           | POk f i' =>
               match parse_elems fuel' g (n - 1) i' with
               | POk l r => POk (f :: l) r
               | PIncomplete => PIncomplete
               | PError => PError
               end
           | PIncomplete => PIncomplete
           | PError => PError
           end
       end.
(** frame.rs:135-152; [g] is the recursive call of [parse_alt]. *)
Definition parse_array (g : parser frame) : parser frame :=
  _ <- ptag (bs "*");; l <- take_line1;; _ <- ptag CRLF;;
  (if (atoi_or_0 l <? 0)%Z then pret FNull
   else fun i => match parse_elems (S (length i)) g (Z.to_N (atoi_or_0 l)) i with
                 | POk fs r => POk (FArray fs) r
                 | PIncomplete => PIncomplete
                 | PError => PError
                 end).
(** frame.rs:155-158 *)
Definition parse_ping : parser frame := _ <- ptag (bs "PING" ++ CRLF);; pret FPing.

(** frame.rs:165-174.  [fuel] bounds the nesting depth; every array header takes at least four bytes, so
    [S (length i)] never runs out (FrameFacts.parse_fuel).  Simplification: the Rust stack is not modelled;
    the real recursion overflows it on deeply nested arrays. *)
Fixpoint parse_alt (fuel : nat) : parser frame :=
  match fuel with
  | O => fun _ => PIncomplete
  | S fuel' =>
      palt parse_simple (palt parse_error (palt parse_int (palt parse_bulk
        (palt (parse_array (parse_alt fuel')) parse_ping))))
  end.

(** frame.rs:181-188; the number of consumed bytes is represented by the rest. *)
Definition parse (i : bytes) : pres frame := parse_alt (S (length i)) i.

(** frame.rs:192-251 *)
Fixpoint write (f : frame) : bytes :=
  match f with
  | FSimple a => bs "+" ++ a ++ CRLF
  | FError a => bs "-" ++ a ++ CRLF
  | FInteger z => bs ":" ++ show_Z z ++ CRLF
  | FBulk b => bs "$" ++ show_N (N.of_nat (length b)) ++ CRLF ++ b ++ CRLF
  | FNull => bs "$-1" ++ CRLF
  | FArray l => bs "*" ++ show_N (N.of_nat (length l)) ++ CRLF ++ concat (map write l)
  | FPing => bs "+PING" ++ CRLF
  | FPong => bs "+PONG" ++ CRLF
  | FNoRes => []
  end.

(** ** Connections: component/common/src/connection/mod.rs *)

(** How reading ends: [Ok(None)], [Err("connection reset by peer")], a parse error.
    common/src/connection/mod.rs:56-67. *)
Inductive conn_end := EndClean | EndReset | EndParse.
Global Instance conn_end_eq_dec : EqDecision conn_end. Proof. solve_decision. Defined.

(** mod.rs:46-70.  [chunks] is what the successive reads of the socket return; an empty chunk and the end of
    the list mean end of file.  The bytes of the frame returned last are dropped at the next call
    (mod.rs:47-51), here right away. *)
Fixpoint read_frame (chunks : list bytes) (buf : bytes) : (frame * bytes * list bytes) + conn_end :=
  match parse buf with
  | POk f rest => inl (f, rest, chunks)
  | PError => inr EndParse
  | PIncomplete =>
      match chunks with
      | [] | [] :: _ => inr (if bool_decide (buf = []) then EndClean else EndReset)
      | c :: cs => read_frame cs (buf ++ c)
      end
  end.

(** Reading frame after frame (component/server/src/lib.rs:218-257 without the execution).  Every frame
    consumes at least one byte, so the number of bytes received bounds the number of frames. *)
Fixpoint conn_frames (fuel : nat) (chunks : list bytes) (buf : bytes) : list frame * conn_end :=
  match fuel with
  | O => ([], EndReset)
  | S fuel' =>
      match read_frame chunks buf with
      | inl (f, buf', cs) => let '(fs, e) := conn_frames fuel' cs buf' in (f :: fs, e)
      | inr e => ([], e)
      end
  end.
(** All frames a connection yields: the loop of server/src/lib.rs:219-228. *)
Definition conn_requests (chunks : list bytes) : list frame * conn_end :=
  conn_frames (S (length (concat chunks))) chunks [].
