(** Properties of the wire protocol and of request framing (C01 - C04). *)
From Verif Require Import FrameFacts.

(** ** C01 Frames survive the wire *)
Theorem C01_frame_roundtrip : forall f rest, wf_frame f -> parse (write f ++ rest) = POk f rest.
Proof. exact parse_write. Qed.
Print Assumptions C01_frame_roundtrip.

(** Distinct well-formed frames never share a wire form, and neither form is a prefix of the other. *)
Theorem C01_encoding_prefix_free : forall f g s t, wf_frame f -> wf_frame g ->
  write f ++ s = write g ++ t -> f = g /\ s = t.
Proof.
  intros f g s t Hf Hg E. pose proof (parse_write f s Hf) as H. rewrite E, (parse_write g t Hg) in H.
  by injection H as -> ->.
Qed.
Print Assumptions C01_encoding_prefix_free.

(** The restrictions on [wf_frame] are needed: an empty error text is written as bytes that are rejected, a
    line break inside a simple string cuts it, and a bare PING is written as a simple string. *)
Theorem C01_unrestricted_refuted :
  parse (write (FError [])) = PError /\
  parse (write (FSimple (bs "a" ++ CRLF ++ bs "b"))) = POk (FSimple (bs "a")) (bs "b" ++ CRLF) /\
  parse (write FPing) = POk (FSimple (bs "PING")) [].
Proof. done. Qed.
Print Assumptions C01_unrestricted_refuted.

Definition deep : frame := FArray [FInteger (- 2 ^ 63); FBulk (CRLF ++ bs "$-1"); FArray [FNull; FArray []]; FError (bs "no"); FSimple []].
Example deep_wf : wf_frame deep.
Proof. cbn. unfold one_line; cbn. repeat split; try lia; try done; intros [H|[H|H]]; done. Qed.
Example C01_frame_roundtrip_case : parse (write deep ++ bs "*1") = POk deep (bs "*1").
Proof. apply C01_frame_roundtrip, deep_wf. Qed.

(** ** C02 TCP segmentation is invisible *)
(** Any two ways of cutting the same bytes into (non-empty) reads give the same requests and the same end. *)
Theorem C02_segmentation_invisible : forall c1 c2,
  Forall (fun c => c <> []) c1 -> Forall (fun c => c <> []) c2 -> concat c1 = concat c2 ->
  conn_requests c1 = conn_requests c2.
Proof. intros c1 c2 H1 H2 E. rewrite !segmentation by done. by rewrite E. Qed.
Print Assumptions C02_segmentation_invisible.

(** The same from any state of the receive buffer: bytes still unread behave as bytes already buffered. *)
Theorem C02_buffered_bytes : forall fuel b c cs, b <> [] -> Forall (fun c => c <> []) cs ->
  conn_frames fuel (b :: cs) c = conn_frames fuel cs (c ++ b).
Proof.
  intros fuel b c cs Hb H. rewrite !conn_frames_stream by (try done; by constructor). cbn. by rewrite app_assoc.
Qed.
Print Assumptions C02_buffered_bytes.

Example C02_segmentation_case :
  conn_requests [bs "*1" ++ [CR]; [LF]; bs "$1" ++ CRLF ++ bs "a"; CRLF ++ bs "+"] =
  conn_requests [bs "*1" ++ CRLF ++ bs "$1" ++ CRLF ++ bs "a" ++ CRLF ++ bs "+"] /\
  conn_requests [bs "*1" ++ CRLF ++ bs "$1" ++ CRLF ++ bs "a" ++ CRLF ++ bs "+"] = ([FArray [FBulk (bs "a")]], EndReset).
Proof. done. Qed.

(** ** C03 Partial requests are never misread *)
Theorem C03_prefix_incomplete : forall f s, wf_frame f -> proper_prefix s (write f) -> parse s = PIncomplete.
Proof.
  intros f s W (u & U & E). pose proof (parse_write f [] W) as P. rewrite app_nil_r, E in P.
  destruct (parse_stable s u) as [S1 S2]. destruct (parse s) as [g r| |]; [|done|].
  - rewrite (S1 g r eq_refl) in P. injection P as _ P. apply app_eq_nil in P as [_ P]. done.
  - rewrite (S2 eq_refl) in P. done.
Qed.
Print Assumptions C03_prefix_incomplete.

Theorem C03_decided_stays_decided : forall s t,
  (forall f r, parse s = POk f r -> parse (s ++ t) = POk f (r ++ t)) /\ (parse s = PError -> parse (s ++ t) = PError).
Proof. exact parse_stable. Qed.
Print Assumptions C03_decided_stays_decided.

(** "Incomplete" never hides a decision: the recursion bound of the parser is irrelevant, so an incomplete
    buffer is one on which the real, unbounded parser asks for more bytes. *)
Theorem C03_fuel_irrelevant : forall fuel s, (length s < fuel)%nat -> parse_alt fuel s = parse s.
Proof. intros fuel s H. apply parse_fuel; [done|lia]. Qed.
Print Assumptions C03_fuel_irrelevant.

Example C03_prefix_case : parse (bs "*2" ++ CRLF ++ bs "$3" ++ CRLF ++ bs "ab") = PIncomplete /\ parse (bs "?") = PError.
Proof. done. Qed.

(** ** C04 Pipelined requests are decoded one by one in order *)
Theorem C04_pipeline : forall fs chunks, Forall wf_frame fs -> Forall (fun c => c <> []) chunks ->
  concat chunks = concat (map write fs) -> conn_requests chunks = (fs, EndClean).
Proof. intros fs chunks W C E. rewrite segmentation, E by done. apply stream_writes; [done|lia]. Qed.
Print Assumptions C04_pipeline.

(** Cut off in the middle of a frame, the stream still yields all complete frames and ends with an error. *)
Theorem C04_cut_pipeline : forall fs f s chunks, Forall wf_frame fs -> wf_frame f -> s <> [] -> proper_prefix s (write f) ->
  Forall (fun c => c <> []) chunks -> concat chunks = concat (map write fs) ++ s ->
  conn_requests chunks = (fs, EndReset).
Proof.
  intros fs f s chunks W Wf N P C E. rewrite segmentation, E by done.
  assert (F : (length (concat (map write fs) ++ s) < S (length (concat (map write fs) ++ s)))%nat) by lia.
  revert F. generalize (S (length (concat (map write fs) ++ s))). clear E.
  induction W as [|g fs Hg _ IH]; intros fuel F; (destruct fuel as [|fuel]; [lia|]); cbn [map concat stream_frames].
  - cbn [app]. rewrite (C03_prefix_incomplete f s Wf P). by rewrite bool_decide_false.
  - rewrite <- app_assoc, (parse_write g) by done. pose proof (write_pos g Hg).
    cbn [map concat] in F. rewrite <- app_assoc, app_length in F. by rewrite IH by lia.
Qed.
Print Assumptions C04_cut_pipeline.

Example C04_pipeline_case : conn_requests [write deep ++ firstn 4 (write deep); skipn 4 (write deep)] = ([deep; deep], EndClean).
Proof. apply (C04_pipeline [deep; deep]); [repeat constructor; apply deep_wf|repeat constructor; done|]. done. Qed.
