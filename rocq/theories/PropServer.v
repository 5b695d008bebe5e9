(** C65, C69, C06, C13, and C12, C16, C17, C35, C41 for whole requests. *)
From Verif Require Export WireFacts SpecRequest VisitFacts SpecVisit.

(** A concrete environment for the examples. *)
Definition ex_env : env := Env horder_default (fun _ => bs "1.5") (fun _ => bs "bad payload").
Definition ex_clock : nat -> nat -> N := fun i j => (1000 * N.of_nat i + N.of_nat j)%N.
Definition ex_start : effects := Effects db_empty [] [].
(** A request as a client library writes it. *)
Definition req (ws : list bytes) : frame := FArray (map FBulk ws).
Definition ex_run (reqs : list (list bytes)) := connection ex_env ex_clock (fun _ => alone) [concat (map (fun r => write (req r)) reqs)] ex_start.

(** * C65: one reply per request, in order *)
(** A connection serves the frames of the received bytes one after the other ([session]); it answers each of
    them unless one ends the connection. *)
Theorem C65_connection_is_a_session en clock oth chunks e :
  let '(fs, ce) := conn_requests chunks in
  let '(e', rs, h) := connection en clock oth chunks e in
  exists o, session en clock oth e fs rs e' o /\
    match o with
    | None => length rs = length fs /\ h = match ce with EndClean => HClean | _ => HError end
    | Some h' => h = h' /\ (length rs < length fs)%nat
    end.
Proof.
  pose proof (handler_session (S (length (concat chunks))) en clock oth chunks [] e) as H.
  unfold conn_requests, connection. destruct (conn_frames _ _ _) as [fs ce], (handler _ _ _ _ _ _ _) as [[e' rs] h].
  destruct H as (o & S & Ho). exists o. split; [done|]. pose proof (session_length _ _ _ _ _ _ _ _ S). by destruct o.
Qed.
(** What a session does is determined by the requests, the clock and the other connections. *)
Theorem C65_session_deterministic en clock oth e fs rs e' o rs2 e2 o2 :
  session en clock oth e fs rs e' o -> session en clock oth e fs rs2 e2 o2 -> rs = rs2 /\ e' = e2 /\ o = o2.
Proof. apply session_det. Qed.
(** How the bytes are cut into packets does not matter. *)
Theorem C65_segmentation en clock oth chunks chunks' e : Forall (fun c => c <> []) chunks -> Forall (fun c => c <> []) chunks' ->
  concat chunks = concat chunks' -> connection en clock oth chunks e = connection en clock oth chunks' e.
Proof.
  intros H H' E. pose proof (C65_connection_is_a_session en clock oth chunks e) as S.
  pose proof (C65_connection_is_a_session en clock oth chunks' e) as S'.
  rewrite segmentation in S by done. rewrite segmentation in S' by done. rewrite E in S.
  destruct (stream_frames _ _) as [fs ce]. destruct (connection en clock oth chunks e) as [[e1 r1] h1].
  destruct (connection en clock oth chunks' e) as [[e2 r2] h2].
  destruct S as (o & S & C). destruct S' as (o' & S' & C'). destruct (session_det _ _ _ _ _ _ _ _ _ _ _ S S') as (-> & -> & ->).
  destruct o'; destruct C as [C1 C2], C' as [C1' C2']; congruence.
Qed.
(** After a frame that is no request nothing more is executed or answered. *)
Theorem C65_nothing_after_syntax_error en clock oth e fs1 f fs2 rs e' o :
  session en clock oth e (fs1 ++ f :: fs2) rs e' o -> from_frame f = None ->
  exists o', session en clock oth e fs1 rs e' o' /\ o <> None.
Proof. intros S N. destruct (session_prefix _ _ _ _ _ _ _ _ _ _ S N) as [[S' ->]|(h & -> & S')]; eauto. Qed.
(** Bytes that violate the protocol change neither the effects nor the answers of the requests before them. *)
Theorem C65_nothing_after_protocol_error en clock oth fs junk chunks e : Forall wf_frame fs -> parse junk = PError ->
  Forall (fun c => c <> []) chunks -> concat chunks = concat (map write fs) ++ junk ->
  exists o, session en clock oth e fs (snd (fst (connection en clock oth chunks e))) (fst (fst (connection en clock oth chunks e))) o.
Proof.
  intros W P H E. pose proof (C65_connection_is_a_session en clock oth chunks e) as S.
  rewrite segmentation in S by done. rewrite E in S.
  assert (F : forall fuel, (length (concat (map write fs) ++ junk) < fuel)%nat -> stream_frames fuel (concat (map write fs) ++ junk) = (fs, EndParse)).
  { clear -W P. induction W as [|f fs Hf _ IH]; intros fuel L.
    - destruct fuel; [lia|]. cbn in *. by rewrite P.
    - destruct fuel as [|fuel]; [lia|]. cbn [map concat stream_frames] in *. rewrite <- app_assoc, parse_write by done.
      pose proof (write_pos f Hf). rewrite !app_length in L. rewrite IH; [done|]. rewrite app_length. lia. }
  rewrite F in S by lia. destruct (connection en clock oth chunks e) as [[e' rs] h]. destruct S as (o & S & _). by exists o.
Qed.
Example C65_case :
  let '(e, rs, h) := ex_run [[bs "SET"; bs "k"; bs "1"]; [bs "INCR"; bs "k"]; [bs "get"]; [bs "INCR"; bs "k"]] in
  rs = [frame_ok; FInteger 2] /\ h = HError /\ db_contents (ef_db e) (bs "k") = Some (DInteger 2, 0%N) /\ parse (bs "?") = PError.
Proof. vm_compute. done. Qed.

(** * C69: DEL and EXISTS on several keys *)
(** They are the single-key requests in order, at the same instants and with the same activity of other
    connections in between; the reply is the sum. *)
Theorem C69_del en clock oth ks e : (Z.of_nat (length ks) < 2 ^ 63)%Z ->
  exists z e', each_key en (fun k => QDel [k]) clock oth ks e z e' /\ serve_request en clock oth (QDel ks) e = (e', inl (FInteger z)).
Proof.
  intros L. destruct (run_each (fun k => CWrite (WDel k)) QDel en ltac:(by left) ltac:(by intros) ks clock oth e L) as (z & e' & rs & H1 & H2 & -> & _).
  exists (count_hits rs), e'. split; [done|]. unfold serve_request. cbn [plan_of]. by rewrite H2.
Qed.
Theorem C69_exists en clock oth ks e : (Z.of_nat (length ks) < 2 ^ 63)%Z ->
  exists z e', each_key en (fun k => QExists [k]) clock oth ks e z e' /\ serve_request en clock oth (QExists ks) e = (e', inl (FInteger z)).
Proof.
  intros L. destruct (run_each (fun k => CRead (RExists k)) QExists en ltac:(by right) ltac:(by intros) ks clock oth e L) as (z & e' & rs & H1 & H2 & -> & _).
  exists (count_hits rs), e'. split; [done|]. unfold serve_request. cbn [plan_of]. by rewrite H2.
Qed.
(** The sum is determined by the single requests. *)
Theorem C69_deterministic en mk clock oth ks e z e1 z' e2 :
  each_key en mk clock oth ks e z e1 -> each_key en mk clock oth ks e z' e2 -> z = z' /\ e1 = e2.
Proof.
  intros H; revert z' e2; induction H as [|clock oth k ks e e1 z1 z e2 E _ IH]; intros z' e3 H2; inversion H2; subst; [done|].
  match goal with H : serve_request _ _ _ _ _ = _ |- _ => rewrite E in H; injection H as <- <- end.
  edestruct IH as [-> ->]; [eassumption|]. done.
Qed.
Example C69_case :
  let '(e, rs, h) := ex_run [[bs "SET"; bs "a"; bs "1"]; [bs "SET"; bs "b"; bs "2"]; [bs "EXISTS"; bs "a"; bs "b"; bs "a"; bs "c"]; [bs "DEL"; bs "a"; bs "a"; bs "b"]] in
  rs = [frame_ok; frame_ok; FInteger 3; FInteger 2].
Proof. vm_compute. done. Qed.

(** * C06: replies are well-formed frames *)
(** As long as no request asks for members of sets or sorted sets, names an unknown command, or restores a payload
    holding line breaks in a simple string: whatever arrives, a client that receives the output in any
    packets reads exactly the replies, and this stays so. *)
Theorem C06_replies_partial en clock oth chunks e : plain en -> horder_ok (e_ho en) ->
  Forall (fun f => forall q, from_frame f = Some q -> ~ quoting q /\ match q with QRestore _ _ _ _ => request_all printable q | _ => True end)
    (fst (conn_requests chunks)) ->
  (forall i, others_keep printable (oth i)) -> db_all printable (ef_db e) ->
  let '(e', rs, h) := connection en clock oth chunks e in
  (N.of_nat (length (concat (map write rs))) < 2 ^ 63)%N ->
  db_all printable (ef_db e') /\
  forall packets, Forall (fun c => c <> []) packets -> concat packets = concat (map write rs) ->
    conn_requests packets = (map read_back rs, EndClean).
Proof.
  intros PE HO F O D. pose proof (C65_connection_is_a_session en clock oth chunks e) as S.
  pose proof (conn_wire (Datatypes.S (length (concat chunks))) chunks []) as W. change (conn_frames _ _ _) with (conn_requests chunks) in W.
  destruct (conn_requests chunks) as [fs ce], (connection en clock oth chunks e) as [[e' rs] h]. cbn [fst] in *.
  destruct S as (o & S & _). intros L. destruct (session_tidy en clock oth e fs rs e' o PE HO S W F O D) as [T K]. split; [done|].
  intros packets P E. rewrite segmentation by done. rewrite E, <- map_write_read_back.
  apply stream_writes; [by apply read_back_wf|lia].
Qed.
(** A single reply. *)
Theorem C06_single_reply_partial en clock oth q e e' f : plain en -> horder_ok (e_ho en) -> ~ quoting q -> others_keep printable oth ->
  request_all printable q -> db_all printable (ef_db e) -> serve_request en clock oth q e = (e', inl f) ->
  (N.of_nat (length (write f)) < 2 ^ 63)%N -> forall rest, parse (write f ++ rest) = POk (read_back f) rest.
Proof.
  intros PE HO NQ O R D E L rest. rewrite <- write_read_back. apply parse_write.
  destruct (serve_tidy en clock oth q e e' f PE HO NQ O R D E) as [->|T]; [by apply one_line_check|].
  replace (read_back f) with f by (by destruct f). by apply tidy_wf.
Qed.
Example C06_case : plain ex_env /\ horder_ok horder_default /\ db_all printable db_empty /\ others_keep printable alone /\
  let '(e, rs, h) := ex_run [[bs "HSET"; bs "h"; [CR; LF]; CRLF ++ bs "+x"]; [bs "HGETALL"; bs "h"]; [bs "PING"]] in
  rs = [FInteger 1; FArray [FBulk CRLF; FBulk (CRLF ++ bs "+x")]; FPong].
Proof.
  split; [split; [intros x; by apply one_line_check|]; intros b; split; [done|]; by apply one_line_check|].
  split; [intros A m; reflexivity|]. split; [intros k x e; done|]. split; [by intros i e|]. vm_compute. done.
Qed.
(** A member with a line break: the client reads other frames than the replies sent. *)
Theorem C06_members_refuted : exists reqs,
  let '(e, rs, h) := ex_run reqs in
  rs = [FInteger 1; FArray [FSimple (bs "a" ++ CRLF ++ bs "+b")]] /\
  conn_requests [concat (map write rs)] = ([FInteger 1; FArray [FSimple (bs "a")]; FSimple (bs "b")], EndClean).
Proof. exists [[bs "SADD"; bs "s"; bs "a" ++ CRLF ++ bs "+b"]; [bs "SMEMBERS"; bs "s"]]. vm_compute. done. Qed.
Theorem C06_zrange_refuted : exists reqs,
  let '(e, rs, h) := ex_run reqs in
  rs = [FInteger 1; FArray [FSimple (bs "a" ++ CRLF ++ bs ":7")]] /\
  conn_requests [concat (map write rs)] = ([FInteger 1; FArray [FSimple (bs "a")]; FInteger 7], EndClean).
Proof. exists [[bs "ZADD"; bs "s"; bs "1"; bs "a" ++ CRLF ++ bs ":7"]; [bs "ZRANGE"; bs "s"; bs "0"; bs "9"]]. vm_compute. done. Qed.
(** The reply to an unknown command can be made to look like several replies. *)
Theorem C06_unknown_command_refuted : exists reqs,
  let '(e, rs, h) := ex_run reqs in
  length rs = 1%nat /\ conn_requests [concat (map write rs)] = ([FError (bs "ERR unknown command 'x"); FSimple (bs "ok', params: []")], EndClean).
Proof. exists [[bs "x" ++ CRLF ++ bs "+OK"]]. vm_compute. done. Qed.

(** * C12: SET as sent by a client *)
(** [e1] is the state when SET executes; options may be given in any order and spelling. *)
Theorem C12_set_request en clock oth e f fk v k x os fss :
  is_word (bs "set") f -> is_text k fk -> as_data v = Some x -> Forall2 spells os fss ->
  let e1 := oth 0%nat e in
  let cur := db_view (clock 1%nat) (ef_db e1) k in
  let want := asked_deadline (clock 0%nat) (last_some expires_of ExNone os) cur in
  (want < 2 ^ 64)%N ->
  let '(e', r) := serve_frame en clock oth (FArray (f :: fk :: v :: concat fss)) e in
  db_contents (ef_db e') k =
    (if set_stores (last_some nx_of NxXx_None os) cur then Some (DScalar x, want) else db_contents (ef_db e1) k) /\
  forall j, j <> k -> db_contents (ef_db e') j = db_contents (ef_db e1) j.
Proof.
  intros W K V F e1 cur want L.
  assert (P : from_frame (FArray (f :: fk :: v :: concat fss)) = Some (QSet k x (set_meaning os))).
  { rewrite (word_name _ f _ W eq_refl). change (lookup_command (lower (bs "set")) commands) with (Some p_set).
    cbn match. unfold p_set, qbind, next. rewrite (text_bytes _ _ K), V, (set_trailing _ _ F). done. }
  unfold serve_frame. rewrite P.
  set (ea := set_expires_at (clock 0%nat) (so_expires (set_meaning os))).
  destruct (db_set_spec (e_ho en) (clock 1%nat) k x ea (so_nx (set_meaning os)) (ef_db e1)) as (reply & R & _ & C & O).
  destruct (serve_one en clock oth (QSet k x (set_meaning os)) e _ _ eq_refl R) as [S _].
  destruct (serve_request en clock oth (QSet k x (set_meaning os)) e) as [e' r]. cbn [fst] in S.
  change (ef_db e' = fst (db_cmd (e_ho en) (clock 1%nat) (CWrite (WSet k x ea (so_nx (set_meaning os)))) (ef_db e1))) in S. rewrite S. split; [|exact O].
  rewrite C. fold cur. change (so_nx (set_meaning os)) with (last_some nx_of NxXx_None os).
  replace (set_deadline ea cur) with want; [done|].
  subst ea want. unfold set_meaning. cbn [so_expires].
  destruct (last_some expires_of ExNone os); cbn [set_expires_at set_deadline asked_deadline] in *;
    unfold add_u64, mul_u64, wrap_u64, two64 in *; rewrite ?N.mod_small; lia || done || idtac.
  all: rewrite ?N.mod_small; lia.
Qed.
Example C12_request_case :
  let '(e, rs, h) := ex_run [[bs "SET"; bs "k"; bs "v"; bs "EX"; bs "10"]; [bs "set"; bs "k"; bs "w"; bs "xx"; bs "KeepTTL"]; [bs "SET"; bs "k"; bs "u"; bs "NX"]] in
  db_contents (ef_db e) (bs "k") = Some (DBytes (bs "w"), 10000%N) /\ rs = [frame_ok; frame_ok; frame_ok].
Proof. vm_compute. done. Qed.

(** * C13: does SET report whether it stored? *)
(** Without GET the answer is always OK ... *)
Theorem C13_set_always_ok en clock oth e k x o : so_get o = false ->
  snd (serve_request en clock oth (QSet k x o) e) = inl frame_ok.
Proof.
  intros G. destruct (db_set_spec (e_ho en) (clock 1%nat) k x (set_expires_at (clock 0%nat) (so_expires o)) (so_nx o) (ef_db (oth 0%nat e))) as (reply & R & _).
  destruct (serve_one en clock oth (QSet k x o) e _ _ eq_refl R) as [_ S]. rewrite S. cbn [answer]. by rewrite G.
Qed.
(** ... so it does not tell whether the value was stored. *)
Theorem C13_nx_reply_refuted : ~ (forall en clock e k x, 
  snd (serve_request en clock alone (QSet k x (SetOpts ExNone NxXx_Nx false)) e) = inl frame_ok <->
  db_contents (ef_db (fst (serve_request en clock alone (QSet k x (SetOpts ExNone NxXx_Nx false)) e))) k = Some (DScalar x, 0%N)).
Proof.
  intros H. specialize (H ex_env (fun _ => 5%N) (fst (fst (ex_run [[bs "SET"; bs "lock"; bs "A"]]))) (bs "lock") (SBytes (bs "B"))).
  destruct H as [H _]. specialize (H ltac:(vm_compute; reflexivity)). vm_compute in H. discriminate H.
Qed.
(** With NX and GET it does: the answer is null exactly when the key was free, and then the value is stored. *)
Theorem C13_nx_get_partial en clock oth e k x o : so_get o = true -> so_nx o = NxXx_Nx ->
  let e1 := oth 0%nat e in
  db_all (fun s => s <> SNull) (ef_db e1) ->
  let '(e', r) := serve_request en clock oth (QSet k x o) e in
  (r = inl FNull <-> db_view (clock 1%nat) (ef_db e1) k = None) /\
  (r = inl FNull -> exists d, db_contents (ef_db e') k = Some (DScalar x, d)) /\
  (r <> inl FNull -> db_contents (ef_db e') k = db_contents (ef_db e1) k).
Proof.
  intros G Hn e1 NN. set (ea := set_expires_at (clock 0%nat) (so_expires o)).
  destruct (db_set_spec (e_ho en) (clock 1%nat) k x ea (so_nx o) (ef_db e1)) as (reply & R & Q & C & _).
  destruct (serve_one en clock oth (QSet k x o) e _ _ eq_refl R) as [S1 S2].
  destruct (serve_request en clock oth (QSet k x o) e) as [e' r]. cbn [fst snd] in *.
  change (ef_db e' = fst (db_cmd (e_ho en) (clock 1%nat) (CWrite (WSet k x ea (so_nx o))) (ef_db e1))) in S1.
  rewrite S1, S2. clear S1 S2.
  cbn [answer]. rewrite G. rewrite Hn in *. rewrite Q by auto. rewrite C. clear C.
  assert (D : forall y d, db_view (clock 1%nat) (ef_db e1) k = Some (y, d) -> data_frame en y <> FNull).
  { intros y d V. unfold db_view, view in V. destruct (contents (ef_db e1 (get_slot k)) k) as [[y' d']|] eqn:E; [|done].
    destruct (decide _); [|done]. injection V as <- <-. specialize (NN k y' d' E). destruct y'; cbn in *; try done. by destruct s. }
  destruct (db_view (clock 1%nat) (ef_db e1) k) as [[y d]|]; cbn [set_stores seen_data].
  - specialize (D y d eq_refl). split; [split; [intros X; injection X as X; by destruct D|done]|]. split; [intros X; injection X as X; by destruct D|done].
  - cbn. split; [done|]. split; [by eauto|done].
Qed.
Example C13_case : snd (serve_request ex_env (fun _ => 5%N) alone (QSet (bs "lock") (SBytes (bs "B")) (SetOpts ExNone NxXx_Nx true))
    (fst (fst (ex_run [[bs "SET"; bs "lock"; bs "A"]])))) = inl (FBulk (bs "A")).
Proof. vm_compute. done. Qed.

(** * C16: deadlines as sent by a client *)
(** When EXPIRE, PEXPIRE, EXPIREAT or PEXPIREAT answers 1, the key is visible exactly before the deadline asked
    for.  Missing: the deadline 0 and numbers that do not fit. *)
Theorem C16_expire_request_partial en clock oth e q k want :
  expire_asks (clock 0%nat) q = Some (k, want) -> (0 < want < 2 ^ 64)%N ->
  let '(e', r) := serve_request en clock oth q e in
  r = inl (FInteger 1) ->
  exists x d, db_view (clock 1%nat) (ef_db (oth 0%nat e)) k = Some (x, d) /\
    forall t, db_view t (ef_db e') k = (if (t <? want)%N then Some (x, want) else None).
Proof.
  intros A L. assert (P : exists nx gl, plan_of (clock 0%nat) q = AOk (PCmds [CWrite (WExpire k want nx gl)]) /\
    forall t b, answer en t q [PBool b] = AOk (bool_frame b)).
  { destruct q; try done; cbn [expire_asks] in A; injection A as <- <-; exists (eo_nx o), (eo_gl o); (split; [|done]); cbn [plan_of];
      (match goal with |- AOk (PCmds [CWrite (WExpire _ ?a _ _)]) = AOk (PCmds [CWrite (WExpire _ ?b _ _)]) =>
         replace a with b; [reflexivity|] end); try reflexivity;
      unfold add_u64, mul_u64, wrap_u64, two64; rewrite ?(N.mod_small (_ * 1000)) by lia; rewrite ?N.mod_small; lia. }
  destruct P as (nx & gl & P & AN).
  destruct (db_expire_spec (e_ho en) (clock 1%nat) k want nx gl (ef_db (oth 0%nat e))) as (b & R & T & _).
  destruct (serve_one en clock oth q e _ _ P R) as [S1 S2]. destruct (serve_request en clock oth q e) as [e' r]. cbn [fst snd] in *.
  rewrite S2, AN. destruct b; [|done]. intros _. destruct (T eq_refl) as (x & d & V & C). exists x, d. split; [done|].
  intros t. rewrite S1. unfold db_view, view. unfold db_contents in C. rewrite C.
  destruct (decide (lives t want)) as [F|F]; unfold lives in F.
  - replace (t <? want)%N with true by lia. done.
  - replace (t <? want)%N with false by lia. done.
Qed.
(** A negative number of seconds means a deadline in the past. *)
Theorem C16_expire_negative en clock oth e k z nx gl : (0 <= z)%Z -> (1000 * z < Z.of_N (clock 0%nat))%Z -> (clock 0%nat < 2 ^ 63)%N ->
  let '(e', r) := serve_request en clock oth (QExpire k (i64_as_u64 (- z)) (ExOpts nx gl)) e in
  r = inl (FInteger 1) -> forall t, (clock 0%nat <= t)%N -> db_view t (ef_db e') k = None.
Proof.
  intros Z0 Z1 L. set (want := Z.to_N (Z.of_N (clock 0%nat) - 1000 * z)).
  assert (P : plan_of (clock 0%nat) (QExpire k (i64_as_u64 (- z)) (ExOpts nx gl)) = AOk (PCmds [CWrite (WExpire k want nx gl)])).
  { cbn [plan_of eo_nx eo_gl]. match goal with |- AOk (PCmds [CWrite (WExpire _ ?a _ _)]) = AOk (PCmds [CWrite (WExpire _ ?b _ _)]) =>
         replace a with b; [reflexivity|] end. symmetry. unfold want, add_u64, mul_u64, wrap_u64, i64_as_u64, two64, z_two64 in *.
    change (2 ^ 64)%N with 18446744073709551616%N; change (2 ^ 64)%Z with 18446744073709551616%Z.
    destruct (Z.eq_dec z 0%Z) as [->|]; [replace (Z.to_N (- 0 mod 18446744073709551616)) with 0%N by reflexivity; cbn [N.mul]; rewrite N.mod_0_l by done; rewrite N.mod_small; lia|].
    replace ((- z) mod 18446744073709551616)%Z with (18446744073709551616 - z)%Z by (rewrite Z.mod_opp_l_nz; rewrite ?Z.mod_small; lia).
    replace (Z.to_N (18446744073709551616 - z) * 1000)%N with (Z.to_N (18446744073709551616 - 1000 * z) + 999 * 18446744073709551616)%N by lia.
    rewrite N.mod_add by done. rewrite (N.mod_small (Z.to_N _)) by lia.
    replace (Z.to_N (18446744073709551616 - 1000 * z) + clock 0%nat)%N with (Z.to_N (Z.of_N (clock 0%nat) - 1000 * z) + 1 * 18446744073709551616)%N by lia.
    rewrite N.mod_add by done. rewrite N.mod_small; lia. }
  destruct (db_expire_spec (e_ho en) (clock 1%nat) k want nx gl (ef_db (oth 0%nat e))) as (b & R & T & _).
  destruct (serve_one en clock oth _ e _ _ P R) as [S1 S2]. destruct (serve_request en clock oth _ e) as [e' r]. cbn [fst snd] in *.
  rewrite S2. cbn [answer]. destruct b; [|done]. intros _ t Ht. destruct (T eq_refl) as (x & d & V & C).
  rewrite S1. unfold db_view, view. unfold db_contents in C. rewrite C.
  destruct (decide (lives t want)) as [F|F]; [|done]. unfold lives, want in F. lia.
Qed.
Example C16_request_case :
  let '(e, rs, h) := ex_run [[bs "SET"; bs "k"; bs "v"]; [bs "EXPIRE"; bs "k"; bs "3"]] in
  rs = [frame_ok; FInteger 1] /\ db_view 3999 (ef_db e) (bs "k") = Some (DBytes (bs "v"), 4000%N) /\ db_view 4000 (ef_db e) (bs "k") = None.
Proof. vm_compute. done. Qed.
(** A deadline in the far future wraps around: the key is gone within a second. *)
Theorem C16_overflow_refuted :
  let '(e, rs, h) := ex_run [[bs "SET"; bs "k"; bs "v"]; [bs "EXPIRE"; bs "k"; bs "18446744073709552"]] in
  rs = [frame_ok; FInteger 1] /\ db_view 2000 (ef_db e) (bs "k") = None.
Proof. vm_compute. done. Qed.
(** A deadline before 1970 is taken for one in the far future. *)
Theorem C16_negative_instant_refuted :
  let '(e, rs, h) := ex_run [[bs "SET"; bs "k"; bs "v"]; [bs "PEXPIREAT"; bs "k"; bs "-1"]] in
  rs = [frame_ok; FInteger 1] /\ db_view (2 ^ 63) (ef_db e) (bs "k") = Some (DBytes (bs "v"), 2 ^ 64 - 1)%N.
Proof. vm_compute. done. Qed.

(** * C17: TTL and PTTL as answered *)
Theorem C17_ttl_request en clock oth e k : 
  let cur := db_view (clock 1%nat) (ef_db (oth 0%nat e)) k in
  (forall x d, cur = Some (x, d) -> (d - clock 1%nat < 2 ^ 63)%N) ->
  snd (serve_request en clock oth (QPttl k) e) = inl (FInteger
    match cur with None => -2 | Some (_, d) => if (d =? 0)%N then -1 else Z.of_N d - Z.of_N (clock 1%nat) end) /\
  snd (serve_request en clock oth (QTtl k) e) = inl (FInteger
    match cur with None => -2 | Some (_, d) => if (d =? 0)%N then -1 else (Z.of_N d - Z.of_N (clock 1%nat) + 500) / 1000 end).
Proof.
  intros cur L.
  pose proof (db_ttl_spec (e_ho en) (clock 1%nat) k (ef_db (oth 0%nat e))) as R. fold cur in R.
  destruct (serve_one en clock oth (QPttl k) e _ _ eq_refl R) as [_ S1]. destruct (serve_one en clock oth (QTtl k) e _ _ eq_refl R) as [_ S2].
  rewrite S1, S2. cbn [answer]. destruct cur as [[x d]|] eqn:EC; [|done]. specialize (L x d eq_refl).
  destruct (d =? 0)%N eqn:E0; [done|].
  assert (lives (clock 1%nat) d).
  { subst cur. unfold db_view, view in EC. destruct (contents _ k) as [[x' d']|]; [|done]. destruct (decide _); [|done]. by injection EC as <- <-. }
  unfold lives in *. unfold u64_as_i64, wrap_i64, add_u64, wrap_u64, two64, z_two63, z_two64.
  split; do 2 f_equal.
  - rewrite Z.mod_small; lia.
  - rewrite N.mod_small by lia. rewrite Z.mod_small; lia.
Qed.
Example C17_request_case :
  let '(e, rs, h) := ex_run [[bs "SET"; bs "k"; bs "v"; bs "PX"; bs "4501"]; [bs "TTL"; bs "k"]; [bs "PTTL"; bs "k"]; [bs "TTL"; bs "none"]] in
  rs = [frame_ok; FInteger 4; FInteger 2500; FInteger (-2)].
Proof. vm_compute. done. Qed.

(** * C35: a request never makes its handler panic ... *)
(** ... provided bounds and scores are in order ([calm_request]); the sorted sets stay sound. *)
Theorem C35_request_partial en clock oth q e : calm_request q -> (forall i e, sound_db (ef_db e) -> sound_db (ef_db (oth i e))) ->
  sound_db (ef_db e) ->
  snd (serve_request en clock oth q e) <> inr HPanic /\ sound_db (ef_db (fst (serve_request en clock oth q e))).
Proof. apply serve_calm. Qed.
Theorem C35_simple_requests q : simple_request q -> calm_request q.
Proof. apply simple_calm. Qed.
Example C35_request_case : sound_db db_empty /\ simple_request (QLrange (bs "l") (-9223372036854775808) 9223372036854775807) /\
  calm_request (QZrangebyscore (bs "z") (bs "-inf") (bs "(5") false None).
Proof.
  split; [done|]. split; [done|]. intros t. split; [vm_compute; done|]. intros cs H. vm_compute in H. injection H as <-.
  constructor; [|constructor]. vm_compute. repeat split; done || auto.
Qed.
Theorem C35_connection_panics_refuted : forall last,
  last ∈ [[bs "ZRANGEBYSCORE"; bs "z"; bs "5"; bs "1"]; [bs "ZRANGEBYLEX"; bs "z"; bs "[b"; bs "[a"]; [bs "ZADD"; bs "z"; bs "nan"; bs "q"];
          [bs "ZRANGEBYSCORE"; bs "z"; [xc3; xa9; xc3; xa9]; bs "1"]] ->
  snd (ex_run [[bs "ZADD"; bs "z"; bs "1"; bs "m"]; last]) = HPanic.
Proof. intros l H. repeat (apply elem_of_cons in H as [->|H]; [vm_compute; reflexivity|]). by apply elem_of_nil in H. Qed.

(** * C41: OBJECT IDLETIME as answered *)
(** [t0] is the last access; the answer, in seconds, exceeds the true idle time by less than 11 seconds and
    is never below its whole seconds. *)
Theorem C41_idletime_request en clock (t0 : N) (r : rreq) (b : db) (h : list (N * cmd)) k x d ex fw :
  accessing k r -> db_view t0 b k = Some (x, d) -> quiet k h -> (t0 / 10000 < 2 ^ 32)%N -> (t0 <= clock 2%nat < 2 ^ 63)%N ->
  exists s, snd (serve_request en clock alone (QObject (bs "IDLETIME") [k])
      (Effects (fst (db_run (e_ho en) h (fst (db_read (e_ho en) t0 r b)))) ex fw)) = inl (FInteger s) /\
    ((Z.of_N (clock 2%nat) - Z.of_N t0) / 1000 <= s <= (Z.of_N (clock 2%nat) - Z.of_N t0) / 1000 + 10)%Z.
Proof.
  intros A V Q L T. set (e := Effects _ _ _).
  assert (R : snd (db_cmd (e_ho en) (clock 1%nat) (CRead (RLastVisit k)) (ef_db e)) = OOk (POptN (Some (t0 / 10000 * 10)%N))).
  { cbn [db_cmd ef_db]. subst e. cbn [ef_db]. by apply (idle_time (e_ho en) t0 (clock 1%nat) r b h k x d). }
  destruct (serve_one en clock alone (QObject (bs "IDLETIME") [k]) e _ _ eq_refl R) as [_ S]. rewrite S. cbn [answer].
  change (bool_decide (bs "IDLETIME" = bs "IDLETIME")) with true. cbn [orb].
  eexists. split; [reflexivity|]. unfold sub_u64, u64_as_i64, wrap_i64, wrap_u64, two64, z_two63, z_two64.
  pose proof (N.div_mod t0 10000). pose proof (N.mod_lt t0 10000). pose proof (N.div_mod (clock 2%nat) 1000). pose proof (N.mod_lt (clock 2%nat) 1000).
  set (u := (t0 / 10000)%N) in *. set (w := (clock 2%nat / 1000)%N) in *. 
  replace ((w + 18446744073709551616 - u * 10) mod 18446744073709551616)%N with (w - u * 10)%N; [|lia]. 
  rewrite Z.mod_small; lia.
Qed.
Example C41_request_case :
  snd (fst (connection ex_env (fun i j => 30000 * N.of_nat i)%N (fun _ => alone)
    [concat (map (fun r => write (req r)) [[bs "SET"; bs "k"; bs "v"]; [bs "GET"; bs "k"]; [bs "OBJECT"; bs "IDLETIME"; bs "k"]])] ex_start)) =
  [frame_ok; FBulk (bs "v"); FInteger 30].
Proof. vm_compute. done. Qed.

Print Assumptions C65_connection_is_a_session. Print Assumptions C65_session_deterministic. Print Assumptions C65_segmentation.
Print Assumptions C65_nothing_after_syntax_error. Print Assumptions C65_nothing_after_protocol_error.
Print Assumptions C69_del. Print Assumptions C69_exists. Print Assumptions C69_deterministic.
Print Assumptions C06_replies_partial. Print Assumptions C06_single_reply_partial. Print Assumptions C06_members_refuted.
Print Assumptions C06_zrange_refuted. Print Assumptions C06_unknown_command_refuted.
Print Assumptions C12_set_request. Print Assumptions C13_set_always_ok. Print Assumptions C13_nx_reply_refuted. Print Assumptions C13_nx_get_partial.
Print Assumptions C16_expire_request_partial. Print Assumptions C16_expire_negative. Print Assumptions C16_overflow_refuted.
Print Assumptions C16_negative_instant_refuted. Print Assumptions C17_ttl_request.
Print Assumptions C35_request_partial. Print Assumptions C35_simple_requests. Print Assumptions C35_connection_panics_refuted.
Print Assumptions C41_idletime_request.
