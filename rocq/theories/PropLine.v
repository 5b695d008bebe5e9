(** C92: every command line becomes the request it names. *)
From Verif Require Export LineFacts Server.

(** The commands without options: a line is accepted exactly when its arguments have the shape of the command, and
    then it is the request of the table. *)
Theorem C92_plain_lines n s f args q : (n, s) ∈ plain_commands -> is_word n f ->
  (from_frame (FArray (f :: args)) = Some q <-> fits s args q).
Proof.
  intros H W. destruct (plain_lookup n s H) as [U L]. rewrite (word_name n f args W U), L.
  rewrite <- shape_fits. apply takes_ok.
Qed.
Print Assumptions C92_plain_lines.
Example C92_plain_lines_case :
  from_frame (FArray [FBulk (bs "LPush"); FBulk (bs "k"); FBulk (bs "a"); FInteger 3; FSimple (bs "b")]) =
    Some (QLpush (bs "k") [SBytes (bs "a"); SInteger 3; SString (bs "b")]) /\
  from_frame (FArray [FBulk (bs "RPOP"); FBulk (bs "k")]) = Some (QRpop (bs "k") 1) /\
  from_frame (FArray [FBulk (bs "RPOP"); FBulk (bs "k"); FBulk (bs "-1")]) = Some (QRpop (bs "k") (2 ^ 64 - 1)) /\
  from_frame (FArray [FBulk (bs "HSET"); FBulk (bs "k"); FBulk (bs "f"); FBulk (bs "1"); FBulk (bs "g")]) = None.
Proof. vm_compute. done. Qed.

(** Together with the commands that take options these are all the commands there are ... *)
Theorem C92_all_commands n : is_Some (lookup_command n commands) <-> n ∈ map fst plain_commands \/ n ∈ option_commands.
Proof.
  assert (K : Forall (fun n => n ∈ map fst plain_commands \/ n ∈ option_commands) (map fst commands)).
  { apply (List.Forall_forall (fun n => n ∈ map fst plain_commands \/ n ∈ option_commands)).
    assert (B : forallb (fun n => bool_decide (n ∈ map fst plain_commands \/ n ∈ option_commands)) (map fst commands) = true) by (vm_compute; reflexivity).
    rewrite forallb_forall in B. intros x I. specialize (B x I). by apply bool_decide_eq_true in B. }
  assert (B2 : forallb (fun n => match lookup_command n commands with Some _ => true | None => false end) (map fst plain_commands ++ option_commands) = true)
    by (vm_compute; reflexivity).
  rewrite forallb_forall in B2. split.
  - intros [p E]. rewrite List.Forall_forall in K. apply K. clear K B2. revert E. generalize commands as t.
    induction t as [|[m p'] t IH]; cbn [lookup_command map fst]; [done|]. destruct (bool_decide_reflect (n = m)) as [->|N]; [by left|].
    intros E. right. by apply IH.
  - intros H. specialize (B2 n). rewrite <- elem_of_list_In, elem_of_app in B2. specialize (B2 H). destruct (lookup_command n commands); [by eexists|done].
Qed.
Print Assumptions C92_all_commands.
Lemma command_lower n : n ∈ map fst plain_commands \/ n ∈ option_commands -> lower n = n.
Proof.
  intros H. assert (K : Forall (fun n => lower n = n) (map fst plain_commands ++ option_commands)) by (apply (bool_decide_eq_true_1 _); vm_compute; reflexivity).
  rewrite list.Forall_forall in K. apply K. by rewrite elem_of_app.
Qed.
Lemma command_ascii n : n ∈ map fst plain_commands \/ n ∈ option_commands -> ascii_text n = true.
Proof.
  intros H. assert (K : Forall (fun n => ascii_text n = true) (map fst plain_commands ++ option_commands)) by (apply (bool_decide_eq_true_1 _); vm_compute; reflexivity).
  rewrite list.Forall_forall in K. apply K. by rewrite elem_of_app.
Qed.
(** ... and every other name is answered as an unknown command, with all its arguments. *)
Theorem C92_unknown b f args : is_text b f -> utf8_valid b = true ->
  (forall n, n ∈ map fst plain_commands \/ n ∈ option_commands -> ~ same_word b n) ->
  from_frame (FArray (f :: args)) = Some (QUnknown (lowercase b) args).
Proof.
  intros H U N. assert (A : as_str f = Some b) by (destruct H as [->| ->]; cbn; by rewrite U).
  unfold from_frame, next. rewrite A. destruct (lookup_command (lowercase b) commands) as [p|] eqn:E; [|done].
  assert (X : is_Some (lookup_command (lowercase b) commands)) by (by rewrite E). apply C92_all_commands in X.
  destruct (N _ X). apply lowercase_is_word; [done|]. by apply command_lower.
Qed.
Print Assumptions C92_unknown.
Example C92_unknown_case : (forall n, n ∈ map fst plain_commands \/ n ∈ option_commands -> ~ same_word (bs "Foo") n) /\
  from_frame (FArray [FBulk (bs "Foo"); FNull]) = Some (QUnknown (bs "foo") [FNull]).
Proof.
  split; [|reflexivity]. intros n H W. apply command_lower in H as L. apply lowercase_word in W as [_ W]; [|by apply command_ascii].
  rewrite L in W. subst n. revert H. assert (K : ~ (lowercase (bs "Foo") ∈ map fst plain_commands \/ lowercase (bs "Foo") ∈ option_commands)); [|done].
  apply (bool_decide_eq_true_1 _). vm_compute. reflexivity.
Qed.
(** A name belongs to at most one command, whatever its spelling; beside the letters in either case there is one more
    spelling of a "k", the Kelvin sign. *)
Theorem C92_spellings b n m : same_word b n -> same_word b m ->
  n ∈ map fst plain_commands \/ n ∈ option_commands -> m ∈ map fst plain_commands \/ m ∈ option_commands -> n = m.
Proof.
  intros H1 H2 N M. apply lowercase_word in H1 as [_ H1]; [|by apply command_ascii]. apply lowercase_word in H2 as [_ H2]; [|by apply command_ascii].
  rewrite (command_lower n N) in H1. rewrite (command_lower m M) in H2. congruence.
Qed.
Print Assumptions C92_spellings.
Example C92_spellings_case : same_word (bs "ZRan" ++ [xe2; x84; xaa]) (bs "zrank") /\
  from_frame (FArray [FBulk (bs "ZRan" ++ [xe2; x84; xaa]); FBulk (bs "k"); FBulk (bs "m")]) = Some (QZrank (bs "k") (bs "m")).
Proof. split; [apply lowercase_is_word; reflexivity|reflexivity]. Qed.

(** PING also arrives as a frame of its own, alone or as the first element of an array; nothing but this frame and
    arrays that begin with a text is a request. *)
Theorem C92_ping : from_frame FPing = Some QPing /\ forall args, from_frame (FArray (FPing :: args)) = Some QPing <-> args = [].
Proof.
  split; [reflexivity|]. intros args. change (from_frame (FArray (FPing :: args))) with (match QOk QPing args with QOk q [] => Some q | _ => None end).
  destruct args; split; done.
Qed.
Print Assumptions C92_ping.
Theorem C92_requests_are_arrays f q : from_frame f = Some q -> f = FPing \/ exists g b args, f = FArray (g :: args) /\ is_utf8 b g.
Proof.
  unfold from_frame. destruct f as [| | | | |l| | |]; try done; intros H; try (by left).
  all: match goal with H : context [next as_str ?l] |- _ => destruct l as [|g args]; [done|]; cbn [next] in H; destruct (as_str g) as [b|] eqn:E; [|done] end.
  all: right; exists g, b, args; (split; [done|]); by apply as_str_iff.
Qed.
Print Assumptions C92_requests_are_arrays.

(** The commands with options: SET, EXPIRE and its siblings and ZRANGE are C64_set_options, C64_expire_options and
    C64_zrange_options. *)
Theorem C92_zadd_line f fk k gs os fss ps : is_word (bs "zadd") f -> is_text k fk ->
  Forall2 (fun o g => is_word (zword o) g) os gs -> ps <> [] -> Forall2 is_scored ps fss ->
  from_frame (FArray (f :: fk :: gs ++ concat fss)) =
  Some (QZadd k (ZaddOpts (last_some znx_of NxXx_None os) (last_some zgl_of GtLt_None os) (bool_decide (ZCh ∈ os)) (bool_decide (ZIncr ∈ os))) ps).
Proof.
  intros W K O N F. rewrite (word_name _ f _ W eq_refl). change (lookup_command (lower (bs "zadd")) commands) with (Some p_zadd).
  destruct F as [|[x m] fs ps fss (g & h & -> & X & M) F]; [done|]. cbn [fst snd] in X, M. cbn [concat app].
  cbn match. unfold p_zadd, qbind. cbn [next]. rewrite (text_bytes _ _ K). rewrite (z_optional os gs g x (h :: concat fss) O X).
  cbn [fst snd]. rewrite X. cbn [next]. rewrite (text_bytes _ _ M).
  rewrite (proj2 (rest_pairs_all as_float as_bytes (fun x f => as_float f = Some x) is_text ltac:(done) as_bytes_iff (concat fss) ps [])); [done|].
  split; [done|]. exists fss. done.
Qed.
Print Assumptions C92_zadd_line.
Theorem C92_zrangebyscore_line f fk flo fhi k lo hi os fss mk :
  (is_word (bs "zrangebyscore") f /\ mk = QZrangebyscore \/ is_word (bs "zrevrangebyscore") f /\ mk = QZrevrangebyscore) ->
  is_text k fk -> is_utf8 lo flo -> is_utf8 hi fhi -> Forall2 wspells os fss ->
  from_frame (FArray (f :: fk :: flo :: fhi :: concat fss)) = Some (mk k lo hi (last_some wscores_of false os) (last_some wlimit_of None os)).
Proof.
  intros W K L H F. apply as_str_iff in L, H.
  destruct W as [[W ->]|[W ->]]; rewrite (word_name _ f _ W eq_refl);
  match goal with |- _ = Some (?m _ _ _ _ _) => change (lookup_command _ commands) with (Some (p_range scores_step (false, None) (fun k lo hi o => m k lo hi (fst o) (snd o)))) end;
  cbn match; unfold p_range, qbind, next; rewrite (text_bytes _ _ K), L, H, (w_trailing _ _ F); done.
Qed.
Print Assumptions C92_zrangebyscore_line.
Theorem C92_zrangebylex_line f fk flo fhi k lo hi os fss mk :
  (is_word (bs "zrangebylex") f /\ mk = QZrangebylex \/ is_word (bs "zrevrangebylex") f /\ mk = QZrevrangebylex) ->
  is_text k fk -> is_utf8 lo flo -> is_utf8 hi fhi -> Forall2 (fun o fs => wspells o fs /\ o <> WScores) os fss ->
  from_frame (FArray (f :: fk :: flo :: fhi :: concat fss)) = Some (mk k lo hi (last_some wlimit_of None os)).
Proof.
  intros W K L H F. apply as_str_iff in L, H.
  destruct W as [[W ->]|[W ->]]; rewrite (word_name _ f _ W eq_refl);
  match goal with |- _ = Some (?m _ _ _ _) => change (lookup_command _ commands) with (Some (p_range limit_step None m)) end;
  cbn match; unfold p_range, qbind, next; rewrite (text_bytes _ _ K), L, H, (l_trailing _ _ F); done.
Qed.
Print Assumptions C92_zrangebylex_line.
Theorem C92_zrevrange_line f fk flo fhi k lo hi fs : is_word (bs "zrevrange") f ->
  is_text k fk -> is_utf8 lo flo -> is_utf8 hi fhi -> Forall (is_word (bs "withscores")) fs ->
  from_frame (FArray (f :: fk :: flo :: fhi :: fs)) = Some (QZrevrange k lo hi (negb (bool_decide (fs = [])))).
Proof.
  intros W K L H F. apply as_str_iff in L, H. rewrite (word_name _ f _ W eq_refl).
  change (lookup_command _ commands) with (Some (p_range (flag_step (bs "withscores")) false QZrevrange)).
  cbn match. unfold p_range, qbind, next. rewrite (text_bytes _ _ K), L, H, flag_trailing; done.
Qed.
Print Assumptions C92_zrevrange_line.
Theorem C92_restore_line f fk fn fv k n v os fss : is_word (bs "restore") f ->
  is_text k fk -> is_count n fn -> is_text v fv -> Forall2 tspells os fss ->
  from_frame (FArray (f :: fk :: fn :: fv :: concat fss)) =
  Some (QRestore k n v (RestoreOpts (last_some treplace_of false os) (last_some tabsttl_of false os) (last_some tidle_of None os) (last_some tfreq_of None os))).
Proof.
  intros W K L V F. rewrite (word_name _ f _ W eq_refl). change (lookup_command _ commands) with (Some p_restore).
  cbn match. unfold p_restore, qbind, next. rewrite (text_bytes _ _ K), (count_arg _ _ L), (text_bytes _ _ V), (t_trailing _ _ F). done.
Qed.
Print Assumptions C92_restore_line.
Theorem C92_flushall_line f fs : is_word (bs "flushall") f -> Forall (is_word (bs "sync")) fs ->
  from_frame (FArray (f :: fs)) = Some (QFlushall (negb (bool_decide (fs = [])))).
Proof.
  intros W F. rewrite (word_name _ f _ W eq_refl).
  change (lookup_command _ commands) with (Some (qmap QFlushall (trailing (flag_step (bs "sync")) false))).
  cbn match. unfold qmap. unfold qbind at 1. rewrite flag_trailing; done.
Qed.
Print Assumptions C92_flushall_line.
Example C92_options_case :
  from_frame (FArray (map FBulk [bs "ZADD"; bs "k"; bs "Gt"; bs "xx"; bs "CH"; bs "1"; bs "a"; bs "inf"; bs "nx"])) =
    Some (QZadd (bs "k") (ZaddOpts NxXx_Xx GtLt_Gt true false) [(f64_of_Z 1, bs "a"); (S754_infinity false, bs "nx")]) /\
  from_frame (FArray (map FBulk [bs "zrangebyscore"; bs "k"; bs "(1"; bs "+inf"; bs "limit"; bs "1"; bs "-1"; bs "WITHSCORES"])) =
    Some (QZrangebyscore (bs "k") (bs "(1") (bs "+inf") true (Some (1, -1)%Z)) /\
  from_frame (FArray (map FBulk [bs "restore"; bs "k"; bs "5"; bs "payload"; bs "freq"; bs "3"; bs "REPLACE"])) =
    Some (QRestore (bs "k") 5 (bs "payload") (RestoreOpts true false None (Some 3%N))).
Proof. split; [|split]; vm_compute; reflexivity. Qed.
(** An option word is no score: ZADD with a misplaced option is refused. *)
Example C92_zadd_misplaced_case :
  from_frame (FArray (map FBulk [bs "ZADD"; bs "k"; bs "1"; bs "a"; bs "CH"; bs "b"])) = None.
Proof. vm_compute. reflexivity. Qed.
