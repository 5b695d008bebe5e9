(** C63, C64: how requests are recognised. *)
From Verif Require Export RequestFacts Server.

(** * C63: names ignore case, arguments are complete *)
(** Spelling the command name in another case makes no difference, whatever the name and the arguments. *)
Theorem C63_command_case n n' args : same_text n n' ->
  from_frame (FArray (FBulk n :: args)) = from_frame (FArray (FBulk n' :: args)) /\
  from_frame (FArray (FSimple n :: args)) = from_frame (FArray (FSimple n' :: args)).
Proof.
  intros S. unfold from_frame, next, as_str. rewrite (utf8_same _ _ S).
  destruct (utf8_valid n'); [|done]. by rewrite (lowercase_same _ _ S).
Qed.
Example C63_command_case_case : same_text (bs "gEt") (bs "GET") /\
  from_frame (FArray [FBulk (bs "gEt"); FBulk (bs "k")]) = Some (QGet (bs "k")).
Proof.
  split; [|reflexivity].
  repeat (apply List.Forall2_cons || apply List.Forall2_nil); unfold same_letter; vm_compute; auto;
    right; right; (split; [split; discriminate|reflexivity]).
Qed.

(** Each command is listed with its arity; too few or too many arguments are never accepted. *)
Theorem C63_arity n lo hi f args q : (n, (lo, hi)) ∈ arity -> is_word n f ->
  from_frame (FArray (f :: args)) = Some q ->
  (lo <= length args)%nat /\ (forall h, hi = Some h -> (length args <= h)%nat).
Proof. apply arity_checked. Qed.
Theorem C63_arity_complete n : n ∈ map fst arity <-> is_Some (lookup_command n commands).
Proof. apply arity_names. Qed.
Theorem C63_hset_pairs f args q : is_word (bs "hset") f -> from_frame (FArray (f :: args)) = Some q -> Nat.Odd (length args).
Proof. apply hset_odd. Qed.
Example C63_arity_case :
  (bs "hset", (3, None))%nat ∈ arity /\ is_word (bs "hset") (FBulk (bs "hset")) /\
  from_frame (FArray [FBulk (bs "hset"); FBulk (bs "k"); FBulk (bs "f"); FInteger 1]) = Some (QHset (bs "k") [(bs "f", SInteger 1)]) /\
  from_frame (FArray [FBulk (bs "hset"); FBulk (bs "k"); FBulk (bs "f")]) = None /\
  from_frame (FArray [FBulk (bs "get"); FBulk (bs "k"); FBulk (bs "f")]) = None.
Proof.
  split; [apply (bool_decide_eq_true_1 _); vm_compute; reflexivity|].
  split; [exists (bs "hset"); split; [auto|repeat constructor]|]. done.
Qed.

(** A request that is not accepted changes nothing, and nothing is answered. *)
Theorem C63_rejected_without_effect en clock oth f e : from_frame f = None -> serve_frame en clock oth f e = (e, inr HError).
Proof. intros H. unfold serve_frame. by rewrite H. Qed.
Example C63_rejected_case : from_frame (FArray [FBulk (bs "set"); FBulk (bs "k")]) = None.
Proof. reflexivity. Qed.

(** SET accepts its options and, after them, at most one frame that is no option ... *)
Theorem C63_set_surplus f args q : is_word (bs "set") f -> from_frame (FArray (f :: args)) = Some q ->
  exists k v fss junk, args = k :: v :: concat fss ++ junk /\ Forall set_option_shape fss /\ (length junk <= 1)%nat.
Proof.
  intros W. rewrite (word_name _ f args W eq_refl). change (lookup_command (lower (bs "set")) commands) with (Some p_set).
  cbn match. destruct (p_set args) as [q' [|g c]| |] eqn:E; try done. intros _.
  unfold p_set in E. apply qbind_ok in E as (k & c1 & H1 & E). apply next_ok in H1 as (f1 & -> & _).
  apply qbind_ok in E as (x & c2 & H1 & E). apply next_ok in H1 as (f2 & -> & _).
  apply qbind_ok in E as (o & c3 & H1 & E). injection E as _ ->.
  unfold trailing in H1. apply qbind_ok in H1 as ([s j] & c4 & H1 & E). injection E as _ ->.
  apply (options_accepts _ set_step_suff) in H1. apply set_shapes in H1 as (fss & -> & F).
  exists f1, f2, fss, (match j with Some g => [g] | None => [] end). split; [done|]. split; [done|]. destruct j; cbn; lia.
Qed.
(** ... which is silently dropped: the claim that surplus arguments are rejected is false. *)
Theorem C63_surplus_refuted : ~ (forall f k v junk, is_word (bs "set") f -> ~ set_option_shape [junk] ->
  from_frame (FArray [f; k; v; junk]) = None).
Proof.
  intros H. specialize (H (FBulk (bs "set")) (FBulk (bs "k")) (FBulk (bs "v")) (FBulk (bs "junk"))).
  assert (W : is_word (bs "set") (FBulk (bs "set"))) by (exists (bs "set"); split; [auto|repeat constructor; by left]).
  specialize (H W). assert (N : ~ set_option_shape [FBulk (bs "junk")]).
  { intros [(f & g & w & E & _)|(f & w & E & Hw & I)]; [done|]. injection E as <-.
    destruct Hw as (b & [E|E] & S); [|done]. injection E as <-.
    repeat (apply elem_of_cons in I as [X|I]; [subst w; apply lowercase_word in S as [_ S]; [by vm_compute in S|done]|]). by apply elem_of_nil in I. }
  specialize (H N). by vm_compute in H.
Qed.

(** * C64: the order of options *)
(** Options mean the same in every order and spelling; of several that set the same thing the last one counts. *)
Theorem C64_set_options f fk k v x os fss : is_word (bs "set") f -> is_text k fk -> as_data v = Some x ->
  Forall2 spells os fss -> from_frame (FArray (f :: fk :: v :: concat fss)) = Some (QSet k x (set_meaning os)).
Proof.
  intros W K V F. rewrite (word_name _ f _ W eq_refl). change (lookup_command (lower (bs "set")) commands) with (Some p_set).
  cbn match. unfold p_set, qbind, next. rewrite (text_bytes _ _ K), V, (set_trailing _ _ F). done.
Qed.
Theorem C64_set_order f fk k v os os' fss fss' x : is_word (bs "set") f -> is_text k fk -> as_data v = Some x ->
  Forall2 spells os fss -> Forall2 spells os' fss' -> os ≡ₚ os' -> ForallOrdPairs (fun a b => ~ conflict a b) os ->
  from_frame (FArray (f :: fk :: v :: concat fss)) = from_frame (FArray (f :: fk :: v :: concat fss')).
Proof.
  intros W K V F F' P N. rewrite (C64_set_options f fk k v x os fss), (C64_set_options f fk k v x os' fss') by done.
  by rewrite (set_meaning_perm os os').
Qed.
(** The last expiry option and the last existence option win. *)
Theorem C64_last_wins os o : 
  (forall e, expires_of o = Some e -> so_expires (set_meaning (os ++ [o])) = e) /\
  (forall n, nx_of o = Some n -> so_nx (set_meaning (os ++ [o])) = n).
Proof. unfold set_meaning; cbn. split; intros z H; rewrite last_some_app; cbn; by rewrite H. Qed.
Theorem C64_expire_options f fk fn k n os fss mk : 
  (is_word (bs "expire") f /\ mk = QExpire \/ is_word (bs "expireat") f /\ mk = QExpireat \/
   is_word (bs "pexpire") f /\ mk = QPexpire \/ is_word (bs "pexpireat") f /\ mk = QPexpireat) ->
  is_text k fk -> is_number (Z.of_N n) fn -> (n < 2 ^ 63)%N -> Forall2 espells os fss ->
  from_frame (FArray (f :: fk :: fn :: concat fss)) =
  Some (mk k n (ExOpts (last_some enx_of NxXx_None os) (last_some egl_of GtLt_None os))).
Proof.
  assert (G : forall mk, match p_expire mk (fk :: fn :: concat fss) with QOk q [] => Some q | _ => None end =
    match qbind (next as_bytes) (fun k => qbind (next as_u64) (fun n => qbind (trailing ex_step (ExOpts NxXx_None GtLt_None))
      (fun o => qret (mk k n o)))) (fk :: fn :: concat fss) with QOk q [] => Some q | _ => None end) by done.
  intros W K V L F.
  destruct W as [[W ->]|[[W ->]|[[W ->]|[W ->]]]]; rewrite (word_name _ f _ W eq_refl);
  match goal with |- _ = Some (?m _ _ _) => change (lookup_command _ commands) with (Some (p_expire m)) end;
  cbn match; rewrite G; unfold qbind, next; rewrite (text_bytes _ _ K), (number_u64 _ _ V L), (ex_trailing _ _ F); done.
Qed.
Theorem C64_zrange_options f fk flo fhi k lo hi os fss : is_word (bs "zrange") f -> is_text k fk ->
  as_str flo = Some lo -> as_str fhi = Some hi -> Forall2 rspells os fss ->
  from_frame (FArray (f :: fk :: flo :: fhi :: concat fss)) =
  Some (QZrange k lo hi (RangeOpts (last_some order_of ByRank os) (bool_decide (RRev ∈ os)) (last_some limit_of None os)
    (bool_decide (RWithscores ∈ os)))).
Proof.
  intros W K L H F. rewrite (word_name _ f _ W eq_refl).
  change (lookup_command (lower (bs "zrange")) commands) with (Some (p_range zrange_step (RangeOpts ByRank false None false) QZrange)).
  cbn match. unfold p_range, qbind, next. rewrite (text_bytes _ _ K), L, H, (zr_trailing _ _ F). done.
Qed.
Example C64_case :
  Forall2 spells [OGet; OEx 10; ONx] [[FBulk (bs "get")]; [FBulk (bs "EX"); FBulk (bs "10")]; [FSimple (bs "nX")]] /\
  ForallOrdPairs (fun a b => ~ conflict a b) [OGet; OEx 10; ONx] /\
  set_meaning [OGet; OEx 10; ONx; OPx 5] = SetOpts (ExPx 5) NxXx_Nx true.
Proof.
  assert (W : forall w b, lower b = lower w -> is_word w (FBulk b) /\ is_word w (FSimple b)).
  { intros w b H. apply lower_same, same_text_word in H. split; eexists; (split; [auto|done]). }
  split.
  { apply List.Forall2_cons; [apply sp_get, W; reflexivity|]. apply List.Forall2_cons.
    - apply sp_ex; [apply W; reflexivity|right; left; reflexivity|reflexivity].
    - apply List.Forall2_cons; [apply sp_nx, W; reflexivity|apply List.Forall2_nil]. }
  split; [|reflexivity]. repeat constructor; unfold conflict; cbn; intros [[[? ?] [? ?]]|[[? ?] [? ?]]]; discriminate.
Qed.

Print Assumptions C63_command_case. Print Assumptions C63_arity. Print Assumptions C63_arity_complete.
Print Assumptions C63_hset_pairs. Print Assumptions C63_rejected_without_effect. Print Assumptions C63_set_surplus.
Print Assumptions C63_surplus_refuted. Print Assumptions C64_set_options. Print Assumptions C64_set_order.
Print Assumptions C64_last_wins. Print Assumptions C64_expire_options. Print Assumptions C64_zrange_options.
