(** From the commands to the requests: what a client sees of one request. *)
From Verif Require Export SpecMeaning.
From Verif Require Import WireFacts CollFacts ZsetFacts ZsetInv TypeFacts SimpleFacts DbFacts BincodeFacts CmdFacts TextFacts BytesFacts.

(** ** One command at the level of visible values *)
Definition no_peek (c : cmd) : bool := match c with CWrite w => negb (peeks w) | CRead r => negb (rpeeks r) end.

Lemma view_is t d k y : view t d k = Some y -> contents d k = Some y /\ lives t (snd y).
Proof.
  unfold view. destruct (contents d k) as [[x e]|]; [|done]. destruct (decide (lives t e)); [|done].
  intros H. injection H as <-. done.
Qed.
Lemma view_db now b c : db_view now b (ckey c) =
  view now (match c with CWrite _ => snd (next_id (b (get_slot (ckey c)))) | CRead _ => b (get_slot (ckey c)) end) (ckey c).
Proof. by destruct c. Qed.
Lemma view_sim {S} (enc : S -> data) ho now c b (s s' : option S) e r :
  no_peek c = true -> db_view now b (ckey c) = stored enc e s -> (s = None -> e = 0%N) ->
  (forall d, lives now e -> contents d (ckey c) = stored enc e s ->
     contents (fst (flat_cmd ho now c d)) (ckey c) = stored enc e s' /\ snd (flat_cmd ho now c d) = r) ->
  db_view now (fst (db_cmd ho now c b)) (ckey c) = stored enc e s' /\ snd (db_cmd ho now c b) = r.
Proof.
  intros P V N H. destruct (db_cmd_refines_slot ho now c b) as [C R]. rewrite view_db in V.
  set (d := match c with CWrite _ => _ | CRead _ => _ end) in *. clearbody d.
  assert (X : db_view now (fst (db_cmd ho now c b)) (ckey c) = view now (fst (flat_cmd ho now c d)) (ckey c)).
  { unfold db_view, view. change (contents (fst (db_cmd ho now c b) (get_slot (ckey c))) (ckey c)) with (db_contents (fst (db_cmd ho now c b)) (ckey c)). by rewrite C. }
  rewrite X, R. clear X C R. destruct s as [x|].
  - cbn [stored fmap option_fmap option_map] in V. destruct (view_is _ _ _ _ V) as [C L]. cbn [snd] in L.
    destruct (H d L C) as [H1 H2]. split; [|done]. by apply (view_stored enc).
  - rewrite (N eq_refl) in *. assert (L : lives now 0%N) by (by left). cbn [stored fmap option_fmap option_map] in V.
    assert (W : contents (without (ckey c) d) (ckey c) = None) by (unfold contents, without; cbn; by rewrite lookup_delete).
    destruct (H (without (ckey c) d) L W) as [H1 H2]. destruct c as [w|q]; cbn [no_peek flat_cmd ckey] in *.
    + apply negb_true_iff in P. destruct (wapply_expired now w d P V) as (E1 & _ & E3).
      split; [|by rewrite E1]. rewrite (E3 now) by lia. by apply (view_stored enc).
    + apply negb_true_iff in P. split; [|by rewrite (rapply_expired ho now q d P V)].
      assert (Y : stored enc 0%N s' = None).
      { rewrite <- H1. destruct (rapply_same ho now q (without (rkey q) d)) as [_ K]. by rewrite K. }
      rewrite Y. destruct (rapply_same ho now q d) as [_ K]. unfold view. rewrite K. exact V.
Qed.

(** ** One request for one command *)
Lemma serve_any en clock oth q e c : plan_of (clock 0%nat) q = AOk (PCmds [c]) ->
  ef_db (fst (serve_request en clock oth q e)) = fst (db_cmd (e_ho en) (clock 1%nat) c (ef_db (oth 0%nat e))) /\
  snd (serve_request en clock oth q e) =
    match snd (db_cmd (e_ho en) (clock 1%nat) c (ef_db (oth 0%nat e))) with
    | OOk r => match answer en (clock 2%nat) q [r] with
        | AOk f => inl f
        | AErr x => inl (FError (err_text en (payload_of q) x))
        | APanic => inr HPanic
        end
    | OErr x => inl (FError (err_text en (payload_of q) (SDict x)))
    | OPanic => inr HPanic
    end.
Proof.
  intros P. pose proof (db_exec_cmd (e_ho en) (clock 1%nat) c (ef_db (oth 0%nat e))) as [R1 R2].
  assert (Q : serve_request en clock oth q e =
    let '(e', rs) := run_cmds (e_ho en) (fun i => clock (S i)) oth [c] e in
    (e', match abind rs (answer en (clock 2%nat) q) with
         | AOk f => inl f | AErr x => inl (FError (err_text en (payload_of q) x)) | APanic => inr HPanic end)).
  { destruct q; unfold serve_request; try rewrite P; try done. }
  rewrite Q. cbn [run_cmds]. destruct (db_exec (e_ho en) (clock 1%nat) c (ef_db (oth 0%nat e))) as [b' o]. cbn [fst snd] in *.
  rewrite <- R1, <- R2. destruct (wo_res o); by cbn [abind fst snd ef_db].
Qed.
(** The reply made of an outcome. *)
Definition reply_of (en : env) (t : N) (q : request) (r : outcome resp) (rep : frame -> Prop) : Prop :=
  match r with
  | OOk r => exists f, answer en t q [r] = AOk f /\ rep f
  | OErr x => rep (FError (err_text en (payload_of q) (SDict x)))
  | OPanic => False
  end.
Lemma does_sim {S} (enc : S -> data) en clock oth q e c (s s' : option S) dl r (rep : frame -> Prop) :
  plan_of (clock 0%nat) q = AOk (PCmds [c]) -> no_peek c = true ->
  before clock oth e (ckey c) = stored enc dl s -> (s = None -> dl = 0%N) ->
  (forall d, lives (clock 1%nat) dl -> contents d (ckey c) = stored enc dl s ->
     contents (fst (flat_cmd (e_ho en) (clock 1%nat) c d)) (ckey c) = stored enc dl s' /\ snd (flat_cmd (e_ho en) (clock 1%nat) c d) = r) ->
  reply_of en (clock 2%nat) q r rep ->
  does en clock oth q e (ckey c) (stored enc dl s') rep.
Proof.
  intros P NP B N H A. destruct (serve_any en clock oth q e c P) as [S1 S2].
  destruct (view_sim enc (e_ho en) (clock 1%nat) c (ef_db (oth 0%nat e)) s s' dl r NP B N H) as [V R]. rewrite R in S2.
  unfold does. destruct (serve_request en clock oth q e) as [e' o]. cbn [fst snd] in S1, S2. subst o.
  destruct r as [r|x|]; cbn [reply_of] in A; [|eexists e', _; split; [reflexivity|]|done].
  - destruct A as (f & -> & Rf). exists e', f. split; [done|]. split; [done|]. rewrite S1. split; [done|].
    intros j J. by apply db_cmd_other.
  - split; [done|]. rewrite S1. split; [done|]. intros j J. by apply db_cmd_other.
Qed.

(** ** Replies *)
Lemma u64_as_i64_mod n : u64_as_i64 (n mod 2 ^ 64) = as_i64 (Z.of_N n).
Proof.
  unfold u64_as_i64, as_i64. change wrap_i64 with as_i64. unfold as_i64. rewrite N2Z.inj_mod by done. change (Z.of_N (2 ^ 64)) with (2 ^ 64)%Z.
  by rewrite Zplus_mod_idemp_l.
Qed.
Lemma len_counted n : len_frame n = counted n.
Proof. unfold len_frame, counted, number. do 2 f_equal. by rewrite <- nat_N_Z. Qed.
Lemma diff_counted a n : diff_frame (a + n) a = counted n.
Proof.
  unfold diff_frame, counted, number, sub_u64. change two64 with (2 ^ 64)%N. rewrite u64_as_i64_mod. unfold as_i64. do 2 f_equal.
  rewrite Nat2N.inj_add, !N2Z.inj_add, N2Z.inj_sub, N2Z.inj_mod, !nat_N_Z by (apply N.lt_le_incl, N.mod_lt; done). change (Z.of_N (2 ^ 64)) with (2 ^ 64)%Z.
  set (w := (2 ^ 64)%Z). set (v := (2 ^ 63)%Z). assert (W : w <> 0%Z) by done. clearbody w v.
  pose proof (Z_div_mod_eq_full (Z.of_nat a) w) as D.
  replace (Z.of_nat a + Z.of_nat n + (w - Z.of_nat a mod w) + v)%Z with ((Z.of_nat n + v) + (Z.of_nat a / w + 1) * w)%Z by nia.
  by apply Z_mod_plus_full.
Qed.
Lemma scalar_shown en x : scalar_frame en x = shown en x.
Proof. by destruct x. Qed.
Lemma scalars_shown en l : map (scalar_frame en) l = map (shown en) l.
Proof. apply map_ext. apply scalar_shown. Qed.

(** ** Collections *)
Lemma list_does en clock oth q e k o s s' dl rep : plan_of (clock 0%nat) q = AOk (PCmds [list_cmd k o]) ->
  before clock oth e k = stored DDeque dl s -> (s = None -> dl = 0%N) ->
  fst (list_step o s) = s' -> reply_of en (clock 2%nat) q (snd (list_step o s)) rep ->
  does en clock oth q e k (stored DDeque dl s') rep.
Proof.
  intros P B N <- R. assert (K : ckey (list_cmd k o) = k) by (by destruct o). rewrite <- K at 1. rewrite <- K in B.
  eapply does_sim; [done|by destruct o|done|done| |done].
  rewrite K. intros d L C. destruct (list_sim k (e_ho en) (clock 1%nat) o d dl s L N C) as (H1 & H2 & _). done.
Qed.
Lemma hash_does en clock oth q e k o s s' dl rep : plan_of (clock 0%nat) q = AOk (PCmds [hash_cmd k o]) ->
  before clock oth e k = stored DKvp dl s -> (s = None -> dl = 0%N) ->
  fst (hash_step read_int o s) = s' -> reply_of en (clock 2%nat) q (snd (hash_step read_int o s)) rep ->
  does en clock oth q e k (stored DKvp dl s') rep.
Proof.
  intros P B N <- R. assert (K : ckey (hash_cmd k o) = k) by (by destruct o). rewrite <- K at 1. rewrite <- K in B.
  eapply does_sim; [done|by destruct o|done|done| |done].
  rewrite K. intros d L C. destruct (hash_sim k (e_ho en) (clock 1%nat) o d dl s L N C) as (H1 & H2 & _). done.
Qed.
Lemma set_does en clock oth q e k o s s' dl rep : plan_of (clock 0%nat) q = AOk (PCmds [set_cmd k o]) ->
  before clock oth e k = stored DSet dl s -> (s = None -> dl = 0%N) ->
  fst (SpecColl.set_step o s) = s' -> reply_of en (clock 2%nat) q (snd (SpecColl.set_step o s)) rep ->
  does en clock oth q e k (stored DSet dl s') rep.
Proof.
  intros P B N <- R. assert (K : ckey (set_cmd k o) = k) by (by destruct o). rewrite <- K at 1. rewrite <- K in B.
  eapply does_sim; [done|by destruct o|done|done| |done].
  rewrite K. intros d L C. destruct (set_sim k (e_ho en) (clock 1%nat) o d dl s L N C) as (H1 & H2 & _). done.
Qed.
Lemma zset_does en clock oth q e k o s s' dl rep : plan_of (clock 0%nat) q = AOk (PCmds [zset_cmd k o]) -> zset_regular o -> zset_ok s ->
  before clock oth e k = stored zset_data dl s -> (s = None -> dl = 0%N) ->
  fst (zset_step o s) = s' -> reply_of en (clock 2%nat) q (snd (zset_step o s)) rep ->
  does en clock oth q e k (stored zset_data dl s') rep.
Proof.
  intros P Z1 Z2 B N <- R. assert (K : ckey (zset_cmd k o) = k) by (by destruct o). rewrite <- K at 1. rewrite <- K in B.
  eapply does_sim; [done|by destruct o|done|done| |done].
  rewrite K. intros d L C. destruct (zset_sim k (e_ho en) (clock 1%nat) o d dl s Z1 Z2 L N C) as (H1 & H2 & _). done.
Qed.

Lemma popped_left {A} n (l : list A) : popped true (N.to_nat (N.min n (N.of_nat (length l)))) l = firstn (N.to_nat n) l.
Proof.
  unfold popped. destruct (N.le_ge_cases n (N.of_nat (length l))); [by rewrite N.min_l|].
  rewrite N.min_r, Nat2N.id by done. by rewrite !take_ge by lia.
Qed.
Lemma unpopped_left {A} n (l : list A) : unpopped true (N.to_nat (N.min n (N.of_nat (length l)))) l = skipn (N.to_nat n) l.
Proof.
  unfold unpopped. destruct (N.le_ge_cases n (N.of_nat (length l))); [by rewrite N.min_l|].
  rewrite N.min_r, Nat2N.id by done. by rewrite !drop_ge by lia.
Qed.
Lemma popped_right {A} n (l : list A) : popped false (N.to_nat (N.min n (N.of_nat (length l)))) l = rev (skipn (length l - N.to_nat n) l).
Proof. unfold popped. rewrite firstn_rev. do 2 f_equal. lia. Qed.
Lemma unpopped_right {A} n (l : list A) : unpopped false (N.to_nat (N.min n (N.of_nat (length l)))) l = firstn (length l - N.to_nat n) l.
Proof. unfold unpopped. rewrite skipn_rev, rev_involutive. f_equal. lia. Qed.
Lemma keys_size (fs : list bytes) (m : gmap bytes scalar) : size ((list_to_set fs : gset bytes) ∩ dom m) <= size m.
Proof. rewrite <- size_dom. apply subseteq_size. set_solver. Qed.
Lemma union_size (x y : gset bytes) : size (x ∪ y) = size x + size (y ∖ x).
Proof. rewrite <- size_union by set_solver. f_equal. apply leibniz_equiv. intros a. destruct (decide (a ∈ x)); set_solver. Qed.
Lemma rest_size (x y : gset bytes) : size x = size (x ∖ y) + size (y ∩ x).
Proof. rewrite <- size_union by set_solver. f_equal. apply leibniz_equiv. intros a. destruct (decide (a ∈ y)); set_solver. Qed.
Lemma read_int_refuses x er : read_int x = inr er -> er = ENotInt \/ er = EWrongType.
Proof. destruct x; unfold read_int; cbn; try destruct (atoi_i64 _); intros H; simplify_eq; auto. Qed.

(** ** Texts of bounds *)
Lemma int_read z t : int_text z t -> int_of t = AOk z.
Proof. intros H. unfold int_of. by rewrite (proj2 (parse_i64_iff t z) H). Qed.
Lemma ascii_whole i t : is_ascii t -> splits_char i t = false.
Proof.
  unfold splits_char. intros F. destruct (nth_error t i) as [b|] eqn:E; [|done]. apply nth_error_In in E.
  unfold is_ascii in F. rewrite List.Forall_forall in F. specialize (F b E). unfold cont, in_range. lia.
Qed.
Lemma score_read b t : score_text b t -> float_bound t = AOk b.
Proof.
  intros [A H]. unfold float_bound. rewrite (ascii_whole 3 t A), andb_false_r. unfold float_of. destruct b as [|x|x]; [done| |].
  - destruct H as [P N]. destruct t as [|b t]; [by rewrite P|].
    destruct (byte_eq_dec b x28) as [->|]; [by destruct (N t)|]. by rewrite P.
  - destruct H as (t' & -> & P). change (bs "(" ++ t') with (x28 :: t'). cbn match. destruct (byte_eq_dec x28 x28); [|done]. by rewrite P.
Qed.
Lemma utf8_tail b t : utf8_valid (b :: t) = true -> (Byte.to_N b < 128)%N -> splits_char 1 (b :: t) = false.
Proof.
  intros U L. assert (V : utf8_valid t = true).
  { cbn [utf8_valid] in U. replace (in_range 0 127 b) with true in U; [done|]. unfold in_range. lia. }
  unfold splits_char. cbn [nth_error]. destruct t as [|c t]; [done|]. destruct (cont c) eqn:C; [|done].
  exfalso. revert V C. clear. cbn [utf8_valid]. unfold cont, in_range. intros V C.
  repeat match type of V with (if ?c then _ else _) = true => replace c with false in V by lia end.
  repeat (match type of V with (match ?l with [] => _ | _ => _ end) = true => destruct l end; [done|];
    repeat match type of V with (if ?c then _ else _) = true => replace c with false in V by lia end). done.
Qed.
Lemma lex_read low b t : lex_text low b t -> lex_bound t = AOk b.
Proof.
  intros [U H]. unfold lex_bound. destruct b as [|m|m].
  - subst t. by destruct low.
  - subst t. change (bs "[" ++ m) with (x5b :: m) in *. by rewrite (utf8_tail _ _ U).
  - subst t. change (bs "(" ++ m) with (x28 :: m) in *. by rewrite (utf8_tail _ _ U).
Qed.
Lemma two_read {A} (f : bytes -> attempt A) lo hi a b : f lo = AOk a -> f hi = AOk b -> two f lo hi = AOk (a, b).
Proof. unfold two. by intros -> ->. Qed.
Lemma nodes_listed en sc l : nodes_frame en sc l = listed en sc l.
Proof. done. Qed.

(** ** Queries and removals by member name *)
Lemma lex_does en clock oth q e k r lim rv s dl rep : plan_of (clock 0%nat) q = AOk (PCmds [CRead (RZRangeLex k r lim rv)]) ->
  lex_range_regular r -> limit_regular lim -> zset_ok s -> (forall m, s = Some m -> equal_scores m) ->
  before clock oth e k = stored zset_data dl s -> (s = None -> dl = 0%N) ->
  reply_of en (clock 2%nat) q (OOk (PNodes (window lim (directed rv (by_lex r (listing (default ∅ s))))))) rep ->
  does en clock oth q e k (stored zset_data dl s) rep.
Proof.
  intros P R Rl Z E B N A. eapply (does_sim zset_data _ _ _ _ _ (CRead (RZRangeLex k r lim rv))); [done|done|done|done| |done].
  cbn [ckey rkey flat_cmd]. intros d L C. split.
  - destruct (rapply_same (e_ho en) (clock 1%nat) (RZRangeLex k r lim rv) d) as [_ K]. by rewrite K.
  - destruct s as [m|]; cbn [default].
    + by apply (zrange_lex_spec _ _ _ _ _ _ _ m dl C L Z (E m eq_refl)). 
    + assert (V : view (clock 1%nat) d k = None) by (unfold view; by rewrite C). cbn [rapply]. cmd_unfold. rewrite (dict_get_none _ _ _ V).
      rewrite listing_empty. unfold directed. destruct rv; cbn [by_lex List.filter rev]; by rewrite window_nil.
Qed.
Lemma remlex_does en clock oth q e k r s dl rep : plan_of (clock 0%nat) q = AOk (PCmds [CWrite (WZRemLex k r false)]) ->
  lex_range_regular r -> zset_ok s -> (forall m, s = Some m -> equal_scores m) ->
  before clock oth e k = stored zset_data dl s -> (s = None -> dl = 0%N) ->
  reply_of en (clock 2%nat) q (OOk (PNodes (by_lex r (listing (default ∅ s))))) rep ->
  does en clock oth q e k (stored zset_data dl (without_members (map n_key (by_lex r (listing (default ∅ s)))) <$> s)) rep.
Proof.
  intros P R Z E B N A. eapply (does_sim zset_data _ _ _ _ _ (CWrite (WZRemLex k r false))); [done|done|done|done| |done].
  cbn [ckey wkey flat_cmd]. intros d L C. destruct s as [m|]; cbn [default].
  - destruct (zremrange_spec (e_ho en) (clock 1%nat) (WZRemLex k r false) (RZRangeLex k r None false) d m dl eq_refl C L Z) as [_ [(H & _)|(gone & H1 & H2 & H3)]].
    + by rewrite (zrange_lex_spec _ _ _ _ _ _ _ m dl C L Z (E m eq_refl) R) in H.
    + rewrite (zrange_lex_spec _ _ _ _ _ _ _ m dl C L Z (E m eq_refl) R) in H1 by done. injection H1 as <-. cbn [wkey] in H3. split; [exact H3|exact H2].
  - assert (V : view (clock 1%nat) d k = None) by (unfold view; by rewrite C). cbn [wapply]. cmd_unfold. rewrite (dict_get_none _ _ _ V).
    rewrite listing_empty. cbn. done.
Qed.

(** ** Other commands *)
Definition answered (en : env) (t : N) (q : request) (r : outcome resp) (rep : frame -> Prop) : Prop :=
  match r with
  | OOk r => match answer en t q [r] with
      | AOk f => rep f
      | AErr x => rep (FError (err_text en (payload_of q) x))
      | APanic => False
      end
  | OErr x => rep (FError (err_text en (payload_of q) (SDict x)))
  | OPanic => False
  end.
Lemma does_flat en clock oth q e c y y' r rep : plan_of (clock 0%nat) q = AOk (PCmds [c]) -> before clock oth e (ckey c) = y ->
  (forall d, view (clock 1%nat) d (ckey c) = y ->
     view (clock 1%nat) (fst (flat_cmd (e_ho en) (clock 1%nat) c d)) (ckey c) = y' /\ snd (flat_cmd (e_ho en) (clock 1%nat) c d) = r) ->
  answered en (clock 2%nat) q r rep ->
  does en clock oth q e (ckey c) y' rep.
Proof.
  intros P B H A. destruct (serve_any en clock oth q e c P) as [S1 S2].
  destruct (db_cmd_refines_slot (e_ho en) (clock 1%nat) c (ef_db (oth 0%nat e))) as [C R].
  unfold before in B. rewrite view_db in B. destruct (H _ B) as [H1 H2]. rewrite H2 in R. rewrite R in S2.
  assert (V : db_view (clock 1%nat) (fst (db_cmd (e_ho en) (clock 1%nat) c (ef_db (oth 0%nat e)))) (ckey c) = y').
  { rewrite <- H1. unfold db_view, view. unfold db_contents in C. by rewrite C. }
  unfold does. destruct (serve_request en clock oth q e) as [e' o]. cbn [fst snd] in S1, S2. subst o.
  assert (O : forall f, rep f -> exists e0 r0, (e', @inl frame hend f) = (e0, inl r0) /\ rep r0 /\
    db_view (clock 1%nat) (ef_db e0) (ckey c) = y' /\ (forall j, j <> ckey c -> db_raw (ef_db e0) j = db_raw (ef_db (oth 0%nat e)) j)).
  { intros f F. exists e', f. split; [done|]. split; [done|]. rewrite S1. split; [done|]. intros j J. by apply db_cmd_other. }
  destruct r as [r|x|]; cbn [answered] in A; [|by apply O|done]. destruct (answer _ _ _ _); [by apply O|by apply O|done].
Qed.
Lemma view_same now d d' k : same_contents d d' -> view now d' k = view now d k.
Proof. intros [_ H]. unfold view. by rewrite H. Qed.
Lemma as_i64_wrap z : wrap_i64 z = as_i64 z.
Proof. done. Qed.
Lemma add_mod a b : add_u64 a b = ((a + b) mod 2 ^ 64)%N.
Proof. done. Qed.
Lemma add_mul_mod a b c : add_u64 a (mul_u64 b c) = ((a + b * c) mod 2 ^ 64)%N.
Proof. unfold add_u64, mul_u64, wrap_u64. change two64 with (2 ^ 64)%N. by rewrite N.add_mod_idemp_r by done. Qed.
Lemma zset_rest_size (ms : list bytes) (m : gmap bytes f64) : size m = size (without_members ms m) + size ((list_to_set ms : gset bytes) ∩ dom m).
Proof.
  rewrite <- !size_dom. rewrite (rest_size (dom m) (list_to_set ms)). do 2 f_equal. apply leibniz_equiv. intros x.
  unfold without_members. rewrite elem_of_difference, !elem_of_dom, elem_of_list_to_set. split.
  - intros [[s E] N]. exists s. by rewrite map_filter_lookup_Some.
  - intros [s E]. apply map_filter_lookup_Some in E as [E N]. split; [by exists s|done].
Qed.
