(** C114: collections as elements of lists and hashes. *)
From Verif Require Export PropMeaning PropSerde.
From Verif Require Import WireFacts ServerFacts BincodeFacts SerdeFacts DecodeFacts DbFacts.

(** An element that is no collection. *)
Definition flat_elem (x : scalar) : Prop :=
  match x with SKvp _ | SDeque _ | SSet _ | SZSet _ _ => False | _ => True end.
(** How many collections an element is nested in, itself included. *)
Fixpoint levels (x : scalar) : nat :=
  match x with
  | SKvp m => S (list_max (map (fun e => levels (snd e)) m))
  | SDeque l => S (list_max (map levels l))
  | SSet _ | SZSet _ _ => 1
  | _ => 0
  end.

(** ** Only RESTORE brings them in: as long as no payload holds one, nothing that arrives on a connection, in
    whatever pieces, stores one. *)
Theorem C114_only_restore en clock oth chunks e :
  Forall (fun f => forall k ttl v o x, from_frame f = Some (QRestore k ttl v o) -> deserialize get_data v = OOk x -> data_all flat_elem x)
    (fst (conn_requests chunks)) ->
  (forall i, others_keep flat_elem (oth i)) -> db_all flat_elem (ef_db e) ->
  let '(e', _, _) := connection en clock oth chunks e in db_all flat_elem (ef_db e').
Proof.
  intros F O D. pose proof (C65_connection_is_a_session en clock oth chunks e) as S.
  pose proof (conn_wire (Datatypes.S (length (concat chunks))) chunks []) as W. change (conn_frames _ _ _) with (conn_requests chunks) in W.
  destruct (conn_requests chunks) as [fs ce], (connection en clock oth chunks e) as [[e' rs] h]. cbn [fst] in *.
  destruct S as (o & S & _). clear ce h.
  assert (PI : forall z, fits_i64 z -> flat_elem (SInteger z)) by done.
  assert (DF : forall f a, wire f -> as_data f = Some a -> flat_elem a) by (intros [] a _ H; try discriminate H; by injection H as <-).
  assert (ST : forall clock oth e f, others_keep flat_elem oth -> wire f ->
    (forall k ttl v o x, from_frame f = Some (QRestore k ttl v o) -> deserialize get_data v = OOk x -> data_all flat_elem x) ->
    db_all flat_elem (ef_db e) -> db_all flat_elem (ef_db (fst (serve_frame en clock oth f e)))).
  { clear -PI DF. intros clock oth e f O W R D. unfold serve_frame. destruct (from_frame f) as [q|] eqn:EF; [|done].
    apply serve_keeps; try done. pose proof (from_frame_stores flat_elem DF f q W EF) as SP.
    destruct q; try exact SP. cbn [request_all]. intros x. by eapply R. }
  induction S as [|clock oth e f fs e1 r rs e2 h E S IH|clock oth e f fs e1 h E].
  - done.
  - apply IH; [by eapply Forall_inv_tail|intros i; apply O| |by eapply Forall_inv_tail].
    specialize (ST (clock 0%nat) _ e f (O 0%nat) (Forall_inv W) (Forall_inv F) D). by rewrite E in ST.
  - specialize (ST (clock 0%nat) _ e f (O 0%nat) (Forall_inv W) (Forall_inv F) D). by rewrite E in ST.
Qed.
Print Assumptions C114_only_restore.

(** ** They are shown as an error in their place, by every request that shows elements, and are no numbers. *)
Theorem C114_shown en clock oth e k l d a b : before clock oth e k = Some (DDeque l, d) ->
  exists r, does en clock oth (QLrange k a b) e k (Some (DDeque l, d)) (eq (FArray r)) /\
  length r = length (slice a b l) /\
  forall i x, slice a b l !! i = Some x -> ~ flat_elem x -> r !! i = Some (FError (bs "type not support")).
Proof.
  intros B. pose proof (C93_lists en clock oth (QLrange k a b) e k _ (Some l) d eq_refl B ltac:(done)) as M. cbn in M.
  exists (map (shown en) (slice a b l)). split; [exact M|]. split; [by rewrite map_length|].
  intros i x I N. change (map (shown en)) with (fmap (M:=list) (shown en)). rewrite list_lookup_fmap, I. cbn. destruct x; try reflexivity; by destruct N.
Qed.
Print Assumptions C114_shown.
Theorem C114_hget en clock oth e k f m d x : horder_ok (e_ho en) -> before clock oth e k = Some (DKvp m, d) ->
  m !! f = Some x -> ~ flat_elem x ->
  does en clock oth (QHget k f) e k (Some (DKvp m, d)) (eq (FError (bs "type not support"))) /\
  forall n, does en clock oth (QHincrby k f n) e k (Some (DKvp m, d)) (eq wrong_type).
Proof.
  intros HO B L N. destruct C94_hashes as (num & RI & M). split.
  - pose proof (M en clock oth (QHget k f) e k _ (Some m) d HO eq_refl B ltac:(done)) as X. cbn in X. rewrite L in X. 
    by destruct x; try (by destruct N).
  - intros n. pose proof (M en clock oth (QHincrby k f n) e k _ (Some m) d HO eq_refl B ltac:(done)) as X. cbn in X. rewrite L in X.
    destruct RI as (_ & _ & RI). rewrite RI in X by (destruct x; first [exact Logic.I | by destruct N]). exact X.
Qed.
Print Assumptions C114_hget.

(** ** Whatever RESTORE accepts, nested to any depth, is stored as it is, and what DUMP then answers restores the
    same again: under any key, in any later state. *)
Theorem C114_accepted_payloads (ho : horder) (t : N) (b : db) (k p : bytes) (e : N) (rp : bool) visit freq (x : data) :
  horder_ok ho -> deserialize get_data p = OOk x -> rp = true \/ db_view t b k = None ->
  let b1 := fst (db_write t (WRestore (RestoreReq k p e rp visit freq)) b) in
  db_contents b1 k = Some (x, e) /\
  forall t1, lives t1 e -> exists p1, snd (db_read ho t1 (RDump k) b1) = OOk (POptBytes (Some p1)) /\
  forall t2 b2 k2 e2 rp2 visit2 freq2, rp2 = true \/ db_view t2 b2 k2 = None ->
    db_contents (fst (db_write t2 (WRestore (RestoreReq k2 p1 e2 rp2 visit2 freq2)) b2)) k2 = Some (x, e2).
Proof.
  intros HO D C b1.
  assert (V : db_contents b1 k = Some (x, e)).
  { subst b1. rewrite db_write_contents. cbn [wkey r_key].
    pose proof (restore_view t (RestoreReq k p e rp visit freq) (snd (next_id (b (get_slot k))))) as Q.
    cbn [r_replace r_key r_value r_exp] in Q. destruct (Q C _ D) as [_ Q2]. cbn [wapply].
    by destruct (restore_apply t _ _) as [[d' o] u]. }
  split; [exact V|]. intros t1 L.
  assert (F : data_fits x).
  { unfold deserialize in D. destruct (get_data p) as [y r| |] eqn:E; try discriminate D. injection D as <-. by eapply gives_data. }
  destruct (C39_dump_restore ho t1 k b1 x e HO) as (p1 & P1 & P2); [|done|].
  - unfold db_view, view. unfold db_contents in V. rewrite V. cbn. by rewrite decide_True.
  - exists p1. split; [exact P1|]. intros t2 b2 k2 e2 rp2 visit2 freq2 C2. by apply P2.
Qed.
Print Assumptions C114_accepted_payloads.

(** ** No limit on the nesting: for every [n] a payload of [12 * n + 16] bytes makes the decoder descend [n] levels
    below the outermost collection.  (The code decodes by recursion on the stack of a worker thread.) *)
Fixpoint nest (n : nat) : scalar := match n with O => SNull | S n' => SDeque [nest n'] end.
Theorem C114_deep_payload n : exists p l, length p = (12 * n + 16)%nat /\ deserialize get_data p = OOk (DDeque [l]) /\ levels l = n.
Proof.
  exists (put_data horder_default (DDeque [nest n])), (nest n).
  assert (F : forall m, elem_fits (nest m)) by (induction m as [|m IH]; [done|]; cbn [nest]; apply elem_fits_deque; split; [done|by constructor]).
  split; [|split].
  - assert (G : forall m, length (put_elem horder_default (nest m)) = (12 * m + 4)%nat).
    { induction m as [|m IH]; [done|]. cbn [nest put_elem]. unfold put_seq. cbn [map concat]. rewrite app_nil_r, !app_length, IH.
      unfold put_u32, put_u64. rewrite !put_le_length. lia. }
    cbn [put_data]. unfold put_seq. cbn [map concat]. rewrite app_nil_r, !app_length, G.
    unfold put_u32, put_u64. rewrite !put_le_length. lia.
  - unfold deserialize. rewrite <- (app_nil_r (put_data _ _)). rewrite (codec_data horder_default horder_default_ok); [done|].
    split; [done|by constructor].
  - induction n as [|n IH]; [done|]. cbn. rewrite IH. lia.
Qed.
Print Assumptions C114_deep_payload.

(** A hash holding a list, a list holding a sorted set of one NaN; shown, counted, dumped. *)
Definition ex_nested : data := DKvp {[bs "f" := SDeque [SBytes (bs "a"); SDeque []]; bs "g" := SInteger 7]}.
Definition ex_deep : data := DDeque [SBytes (bs "a"); SZSet [] [Node S754_nan (bs "m")]; SKvp [(bs "h", SSet [bs "s"])]].
Definition ex_nested_run := ex_run [
  [bs "RESTORE"; bs "h"; bs "0"; put_data horder_default ex_nested]; [bs "RESTORE"; bs "l"; bs "0"; put_data horder_default ex_deep];
  [bs "HGET"; bs "h"; bs "f"]; [bs "HINCRBY"; bs "h"; bs "f"; bs "1"]; [bs "HINCRBY"; bs "h"; bs "g"; bs "1"];
  [bs "LRANGE"; bs "l"; bs "0"; bs "-1"]; [bs "RPOP"; bs "l"]; [bs "LLEN"; bs "l"]].
Example C114_case :
  deserialize get_data (put_data horder_default ex_nested) = OOk ex_nested /\
  deserialize get_data (put_data horder_default ex_deep) = OOk ex_deep /\
  snd (fst ex_nested_run) = [FSimple (bs "OK"); FSimple (bs "OK"); FError (bs "type not support"); wrong_type; FInteger 8;
    FArray [FBulk (bs "a"); FError (bs "type not support"); FError (bs "type not support")];
    FArray [FError (bs "type not support")]; FInteger 2] /\
  db_contents (ef_db (fst (fst ex_nested_run))) (bs "h") =
    Some (DKvp {[bs "f" := SDeque [SBytes (bs "a"); SDeque []]; bs "g" := SInteger 8]}, 0%N).
Proof. (split; [computes|]). (split; [computes|]). (split; [vm_compute; reflexivity|]). computes. Qed.
