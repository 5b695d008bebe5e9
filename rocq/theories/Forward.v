(** Wire format of the forward stream: component/db/src/forward/message.rs and
    component/db/src/forward/connection.rs, [WriteCmd] of component/dict/src/cmd/mod.rs.
    The [Serialize]/[Deserialize] impls are derived: enum variants as u32 in declaration order, struct
    fields in declaration order. *)
From Verif Require Export Db.

(** component/common/src/options/nx_xx.rs:5-12 *)
Definition put_nx (x : nx_xx) : bytes :=
  put_u32 (match x with NxXx_Nx => 0 | NxXx_Xx => 1 | NxXx_None => 2 end)%N.
Definition get_nx : dec nx_xx :=
  t <~ get_u32;;
  match t with 0 => dret NxXx_Nx | 1 => dret NxXx_Xx | 2 => dret NxXx_None | _ => dfail end%N.
(** component/common/src/options/gt_lt.rs:3-8 *)
Definition put_gl (x : gt_lt) : bytes :=
  put_u32 (match x with GtLt_Gt => 0 | GtLt_Lt => 1 | GtLt_None => 2 end)%N.
Definition get_gl : dec gt_lt :=
  t <~ get_u32;;
  match t with 0 => dret GtLt_Gt | 1 => dret GtLt_Lt | 2 => dret GtLt_None | _ => dfail end%N.
(** component/common/src/options/expires_at.rs:3-9 *)
Definition put_ea (x : expires_at) : bytes :=
  match x with Specific ms => put_u32 0 ++ put_u64 ms | Last => put_u32 1 end.
(** Derived [Deserialize] of ExpiresAt (common/src/options/expires_at.rs) *)
Definition get_ea : dec expires_at :=
  t <~ get_u32;;
  match t with 0 => ms <~ get_u64;; dret (Specific ms) | 1 => dret Last | _ => dfail end%N.
(** [std::ops::Bound] (serde's impl: Unbounded 0, Included 1, Excluded 2) *)
Definition put_bound {A} (p : A -> bytes) (b : bound A) : bytes :=
  match b with
  | Unbounded => put_u32 0
  | Included a => put_u32 1 ++ p a
  | Excluded a => put_u32 2 ++ p a
  end.
(** serde [Deserialize] of std [Bound] *)
Definition get_bound {A} (g : dec A) : dec (bound A) :=
  t <~ get_u32;;
  match t with
  | 0 => dret Unbounded
  | 1 => a <~ g;; dret (Included a)
  | 2 => a <~ g;; dret (Excluded a)
  | _ => dfail
  end%N.

(** [WriteCmd] (component/dict/src/cmd/mod.rs:65-84) with the field orders of the request structs:
    simple/del.rs:10-12, simple/expire.rs:11-16, simple/incr.rs:13-16, simple/set.rs:12-17,
    kvp/del.rs:11-14, kvp/incr.rs:13-17, kvp/set.rs:13-19, deque/pop.rs:11-16, deque/push.rs:12-18,
    set/add.rs:11-14, set/remove.rs:11-14, sorted_set/add.rs:12-26, sorted_set/remove.rs:11-14,
    sorted_set/remove_by_rank_range.rs:11-16, sorted_set/remove_by_score_range.rs:13-18,
    sorted_set/remove_by_lex_range.rs:12-16.  [None] is [WriteCmd::None]; RESTORE has no variant, it is
    turned into [None] before ([to_write_cmd]).
    Simplification: the [DataType] of SET, HSET and pushes is a scalar (see [Types.scalar]). *)
Definition put_wcmd (c : option wreq) : bytes :=
  match c with
  | Some (WDel k) => put_u32 0 ++ put_bytes k
  | Some (WExpire k at_ nx gl) => put_u32 1 ++ put_bytes k ++ put_u64 at_ ++ put_nx nx ++ put_gl gl
  | Some (WIncr k n) => put_u32 2 ++ put_bytes k ++ put_i64 n
  | Some (WSet k x ea nx) => put_u32 3 ++ put_bytes k ++ put_scalar x ++ put_ea ea ++ put_nx nx
  | Some (WKvpDel k fs) => put_u32 4 ++ put_bytes k ++ put_seq put_bytes fs
  | Some (WKvpIncr k f n) => put_u32 5 ++ put_bytes k ++ put_bytes f ++ put_i64 n
  | Some (WKvpSet k es nx) =>
      put_u32 6 ++ put_bytes k ++ put_seq (put_pair put_bytes put_scalar) es ++ put_nx nx
  | Some (WDequePop k c lf) => put_u32 7 ++ put_bytes k ++ put_u64 c ++ put_bool lf
  | Some (WDequePush k es lf nx) =>
      put_u32 8 ++ put_bytes k ++ put_seq put_scalar es ++ put_bool lf ++ put_nx nx
  | Some (WSetAdd k ms) => put_u32 9 ++ put_bytes k ++ put_seq put_bytes ms
  | Some (WSetRemove k ms) => put_u32 10 ++ put_bytes k ++ put_seq put_bytes ms
  | Some (WZAdd k ns nx gl i) =>
      put_u32 11 ++ put_bytes k ++ put_seq put_node ns ++ put_nx nx ++ put_gl gl ++ put_bool i
  | Some (WZRemove k ms) => put_u32 12 ++ put_bytes k ++ put_seq put_bytes ms
  | Some (WZRemRank k a b rv) => put_u32 13 ++ put_bytes k ++ put_i64 a ++ put_i64 b ++ put_bool rv
  | Some (WZRemScore k r rv) =>
      put_u32 14 ++ put_bytes k ++ put_pair (put_bound put_f64) (put_bound put_f64) r ++ put_bool rv
  | Some (WZRemLex k r rv) =>
      put_u32 15 ++ put_bytes k ++ put_pair (put_bound put_bytes) (put_bound put_bytes) r ++ put_bool rv
  | Some (WRestore _) | None => put_u32 16
  end.

(** The derived [Deserialize] of the same types. dict/src/cmd/mod.rs:64-84. *)
Definition get_wcmd : dec (option wreq) :=
  t <~ get_u32;;
  match t with
  | 0 => k <~ get_bytes;; dret (Some (WDel k))
  | 1 => k <~ get_bytes;; a <~ get_u64;; nx <~ get_nx;; gl <~ get_gl;; dret (Some (WExpire k a nx gl))
  | 2 => k <~ get_bytes;; n <~ get_i64;; dret (Some (WIncr k n))
  | 3 => k <~ get_bytes;; x <~ get_scalar;; ea <~ get_ea;; nx <~ get_nx;; dret (Some (WSet k x ea nx))
  | 4 => k <~ get_bytes;; fs <~ get_seq get_bytes;; dret (Some (WKvpDel k fs))
  | 5 => k <~ get_bytes;; f <~ get_bytes;; n <~ get_i64;; dret (Some (WKvpIncr k f n))
  | 6 => k <~ get_bytes;; es <~ get_seq (get_pair get_bytes get_scalar);; nx <~ get_nx;;
         dret (Some (WKvpSet k es nx))
  | 7 => k <~ get_bytes;; c <~ get_u64;; lf <~ get_bool;; dret (Some (WDequePop k c lf))
  | 8 => k <~ get_bytes;; es <~ get_seq get_scalar;; lf <~ get_bool;; nx <~ get_nx;;
         dret (Some (WDequePush k es lf nx))
  | 9 => k <~ get_bytes;; ms <~ get_seq get_bytes;; dret (Some (WSetAdd k ms))
  | 10 => k <~ get_bytes;; ms <~ get_seq get_bytes;; dret (Some (WSetRemove k ms))
  | 11 => k <~ get_bytes;; ns <~ get_seq get_node;; nx <~ get_nx;; gl <~ get_gl;; i <~ get_bool;;
          dret (Some (WZAdd k ns nx gl i))
  | 12 => k <~ get_bytes;; ms <~ get_seq get_bytes;; dret (Some (WZRemove k ms))
  | 13 => k <~ get_bytes;; a <~ get_i64;; b <~ get_i64;; rv <~ get_bool;; dret (Some (WZRemRank k a b rv))
  | 14 => k <~ get_bytes;; r <~ get_pair (get_bound get_f64) (get_bound get_f64);; rv <~ get_bool;;
          dret (Some (WZRemScore k r rv))
  | 15 => k <~ get_bytes;; r <~ get_pair (get_bound get_bytes) (get_bound get_bytes);; rv <~ get_bool;;
          dret (Some (WZRemLex k r rv))
  | 16 => dret None
  | _ => dfail
  end%N.

(** forward/message.rs:5-10 *)
Definition put_msg (m : fwd_msg) : bytes := put_u64 (fm_id m) ++ put_u64 (fm_slot m) ++ put_wcmd (fm_cmd m).
(** Derived [Deserialize] of Message (db/src/forward/message.rs) *)
Definition get_msg : dec fwd_msg :=
  i <~ get_u64;; s <~ get_u64;; c <~ get_wcmd;; dret (FwdMsg i s c).

(** forward/message.rs:19-25 *)
Definition msg_none : fwd_msg := FwdMsg 0 0 None.

(** forward/connection.rs:85-95: the messages are written one after the other, without framing. *)
Definition put_msgs (ms : list fwd_msg) : bytes := concat (map put_msg ms).

(** pd_handle/replica.rs:167-181 (receive_cmd): one [deserialize_from] per iteration on the buffered
    stream, until it fails.  [fuel] bounds the number of messages read; every message is at least 20
    bytes long, so the length of the input is enough.  The result is what was sent to the channel and
    the unread rest of the stream. *)
Fixpoint receive_cmd (fuel : nat) (s : bytes) : list fwd_msg * bytes :=
  match fuel with
  | O => ([], s)
  | S fuel' =>
      match get_msg s with
      | DOk m s' => let '(ms, r) := receive_cmd fuel' s' in (m :: ms, r)
      | _ => ([], s)
      end
  end.

(** forward/message.rs:28-37 (stream_encode; not called by the code): a big-endian u32 length first. *)
Definition put_be32 (n : N) : bytes := rev (put_u32 (n mod 2 ^ 32)).
Definition stream_encode (m : fwd_msg) : bytes :=
  put_be32 (N.of_nat (length (put_msg m))) ++ put_msg m.
(** forward/message.rs:40-50 (stream_decode; not called by the code) *)
Definition stream_decode (s : bytes) : dres fwd_msg :=
  if (length s <? 4)%nat then DErr
  else
    match get_u32 (rev (firstn 4 s)) with
    | DOk n _ =>
        let body := skipn 4 s in
        if (N.of_nat (length body) <? n)%N then DErr
        else match get_msg (firstn (N.to_nat n) body) with
             | DOk m _ => DOk m (skipn (N.to_nat n) body)
             | DErr => DErr
             | DPanic => DPanic
             end
    | _ => DErr
    end.
