(** DUMP / RESTORE, and decoding of truncated input. *)
From Verif Require Export BincodeFacts DbFacts.

(** ** Reading more input: a decoder that succeeds succeeds equally on a longer input. *)
Definition extends {A} (g : dec A) : Prop := forall s a r t, g s = DOk a r -> g (s ++ t) = DOk a (r ++ t).

Lemma ext_ret {A} (a : A) : extends (dret a).
Proof. intros s x r t H. injection H as <- <-. done. Qed.
Lemma ext_fail {A} : extends (@dfail A).
Proof. intros s x r t H. discriminate. Qed.
Lemma ext_bind {A B} (f : dec A) (g : A -> dec B) : extends f -> (forall a, extends (g a)) -> extends (dbind f g).
Proof.
  intros F G s b r t. unfold dbind. destruct (f s) as [a r'| |] eqn:E; [|done|done].
  rewrite (F _ _ _ _ E). apply G.
Qed.
Lemma ext_le n : extends (get_le n).
Proof.
  induction n as [|n IH]; [apply ext_ret|]. intros s a r t. cbn. destruct s as [|b s]; [done|]. cbn.
  destruct (get_le n s) as [x r'| |] eqn:E; [|done|done]. rewrite (IH _ _ _ _ E). intros H; by injection H as <- <-.
Qed.
Lemma ext_elems {A} (g : dec A) : extends g -> forall f1 f2 n s l r t, (f1 <= f2)%nat ->
  get_elems f1 g n s = DOk l r -> get_elems f2 g n (s ++ t) = DOk l (r ++ t).
Proof.
  intros E. induction f1 as [|f1 IH]; intros f2 n s l r t F; cbn.
  - destruct (n =? 0)%N eqn:N0; [|done]. intros H; injection H as <- <-. destruct f2; cbn; by rewrite N0.
  - destruct f2 as [|f2]; [lia|]. cbn. destruct (n =? 0)%N eqn:N0; [by intros H; injection H as <- <-|].
    destruct (g s) as [a s'| |] eqn:G; [|done|done]. rewrite (E _ _ _ _ G).
    destruct (get_elems f1 g (n - 1) s') as [l' r'| |] eqn:X; [|done|done].
    rewrite (IH f2 _ _ _ _ t ltac:(lia) X). intros H; by injection H as <- <-.
Qed.
Lemma ext_seq {A} (g : dec A) : extends g -> extends (get_seq g).
Proof.
  intros E s l r t. unfold get_seq. destruct (get_u64 s) as [n s'| |] eqn:H; [|done|done].
  unfold get_u64 in *. rewrite (ext_le 8 _ _ _ t H). apply ext_elems; [done|]. rewrite app_length. lia.
Qed.
Lemma ext_byte : extends get_byte.
Proof. intros [|b s] a r t H; [done|]. injection H as <- <-. done. Qed.

Create HintDb extdb.
Ltac ext :=
  repeat first
    [ solve [auto 1 with extdb nocore] | apply ext_ret | apply ext_fail | apply ext_le | apply ext_byte
    | apply ext_seq | apply ext_bind; [|intros ?]
    | match goal with
      | |- extends (match ?x with _ => _ end) => destruct x
      | |- extends (if ?x then _ else _) => destruct x
      | |- extends get_bytes => unfold get_bytes
      | |- extends (get_pair _ _) => unfold get_pair
      | |- extends get_u64 => unfold get_u64
      | |- extends get_u32 => unfold get_u32
      | |- extends get_u8 => unfold get_u8
      | |- extends get_i64 => unfold get_i64
      | |- extends get_f64 => unfold get_f64
      | |- extends get_bool => unfold get_bool
      | |- extends get_nx => unfold get_nx
      | |- extends get_gl => unfold get_gl
      | |- extends get_ea => unfold get_ea
      | |- extends (get_bound _) => unfold get_bound
      | |- extends get_node => unfold get_node
      end ].
Lemma ext_scalar : extends get_scalar.
Proof.
  unfold get_scalar. apply ext_bind; [ext|]. intros t.
  assert (H : forall g, get_scalar_tag t = Some g -> extends g).
  { intros g. unfold get_scalar_tag. repeat case_match; intros X; try discriminate X; injection X as <-; ext. }
  destruct (get_scalar_tag t) as [g|]; [by apply H|ext].
Qed.
#[global] Hint Resolve ext_scalar : extdb.
Lemma ext_btree : extends get_btree.
Proof.
  intros s0 l r0 t0. unfold get_btree. destruct (get_seq get_node s0) as [l' r'| |] eqn:S; [|done|done].
  rewrite (ext_seq get_node ltac:(ext) _ _ _ t0 S). destruct (btree_of_elems l'); [|done]. intros H; by injection H as <- <-.
Qed.
(** Elements: more fuel and more input change nothing. *)
Definition grows {A} (g g' : dec A) : Prop := forall s a r t, g s = DOk a r -> g' (s ++ t) = DOk a (r ++ t).
Lemma grows_self {A} (g : dec A) : extends g -> grows g g.
Proof. intros H. exact H. Qed.
Lemma grows_bind {A B} (f f' : dec A) (g g' : A -> dec B) : grows f f' -> (forall a, grows (g a) (g' a)) ->
  grows (dbind f g) (dbind f' g').
Proof.
  intros F G s b r t. unfold dbind. destruct (f s) as [a r'| |] eqn:E; [|done|done].
  rewrite (F _ _ _ _ E). apply G.
Qed.
Lemma grows_elems {A} (g g' : dec A) : grows g g' -> forall f1 f2 n s l r t, (f1 <= f2)%nat ->
  get_elems f1 g n s = DOk l r -> get_elems f2 g' n (s ++ t) = DOk l (r ++ t).
Proof.
  intros E. induction f1 as [|f1 IH]; intros f2 n s l r t F; cbn.
  - destruct (n =? 0)%N eqn:N0; [|done]. intros H; injection H as <- <-. destruct f2; cbn; by rewrite N0.
  - destruct f2 as [|f2]; [lia|]. cbn. destruct (n =? 0)%N eqn:N0; [by intros H; injection H as <- <-|].
    destruct (g s) as [a s'| |] eqn:G; [|done|done]. rewrite (E _ _ _ _ G).
    destruct (get_elems f1 g (n - 1) s') as [l' r'| |] eqn:X; [|done|done].
    rewrite (IH f2 _ _ _ _ t ltac:(lia) X). intros H; by injection H as <- <-.
Qed.
Lemma grows_seq {A} (g g' : dec A) : grows g g' -> grows (get_seq g) (get_seq g').
Proof.
  intros E s l r t. unfold get_seq. destruct (get_u64 s) as [n s'| |] eqn:H; [|done|done].
  unfold get_u64 in *. rewrite (ext_le 8 _ _ _ t H). apply grows_elems; [done|]. rewrite app_length. lia.
Qed.
Lemma ext_scalar_tag t g : get_scalar_tag t = Some g -> extends g.
Proof. unfold get_scalar_tag. repeat case_match; intros X; try discriminate X; injection X as <-; ext. Qed.
Lemma grows_pair {A B} (f : dec A) (g g' : dec B) : extends f -> grows g g' -> grows (get_pair f g) (get_pair f g').
Proof.
  intros F G. unfold get_pair. apply grows_bind; [exact F|]. intros a. apply grows_bind; [exact G|]. intros b.
  apply grows_self, ext_ret.
Qed.
Lemma grows_elem : forall n m, (n <= m)%nat -> grows (get_elem n) (get_elem m).
Proof.
  induction n as [|n IH]; intros m L; [intros s a r t H; discriminate H|]. destruct m as [|m]; [lia|].
  cbn [get_elem]. apply grows_bind; [apply grows_self; ext|]. intros tg.
  destruct (get_scalar_tag tg) as [g|] eqn:T; [by apply (ext_scalar_tag tg)|].
  assert (G : grows (get_elem n) (get_elem m)) by (apply IH; lia).
  pose proof ext_btree as XB.
  repeat case_match; try (apply grows_self; apply ext_fail).
  all: try (apply grows_self; ext; exact XB).
  - apply grows_bind; [apply grows_seq, grows_pair; [ext|exact G]|]. intros a. apply grows_self, ext_ret.
  - apply grows_bind; [apply grows_seq, G|]. intros a. apply grows_self, ext_ret.
Qed.
Lemma ext_data : extends get_data.
Proof.
  intros s a r t. unfold get_data.
  assert (G : grows (get_elem (length s)) (get_elem (length (s ++ t)))) by (apply grows_elem; rewrite app_length; lia).
  revert G. generalize (length (s ++ t)) as m. generalize (length s) as n. intros n m G. revert s a r t.
  apply grows_bind; [apply grows_self; ext|]. intros t.
  destruct (get_scalar_tag t) as [g|] eqn:T.
  - apply grows_self. apply ext_bind; [by apply (ext_scalar_tag t)|intros; ext].
  - pose proof ext_btree as XB.
    repeat case_match; try (apply grows_self; apply ext_fail).
    all: try (apply grows_self; ext; exact XB).
    + apply grows_bind; [apply grows_seq, grows_pair; [ext|exact G]|]. intros a. apply grows_self, ext_ret.
    + apply grows_bind; [apply grows_seq, G|]. intros a. apply grows_self, ext_ret.
Qed.
Lemma ext_dict : extends get_dict.
Proof.
  unfold get_dict. apply ext_bind; [ext|]. intros w. apply ext_bind; [|intros; ext]. apply ext_seq. unfold get_pair.
  apply ext_bind; [ext|]. intros k. apply ext_bind; [|intros; ext]. unfold get_value. apply ext_bind; [apply ext_data|]. intros x. ext.
Qed.
Lemma ext_wcmd : extends get_wcmd.
Proof. unfold get_wcmd. apply ext_bind; [ext|]. intros t. ext. Qed.
#[global] Hint Resolve ext_wcmd : extdb.
Lemma ext_msg : extends get_msg.
Proof. unfold get_msg. ext. Qed.

(** A proper prefix of an encoded message decodes to nothing. *)
Lemma msg_truncated m s t : sendable m -> put_msg m = s ++ t -> t <> [] -> forall m' r, get_msg s <> DOk m' r.
Proof.
  intros S E T m' r H. pose proof (ext_msg _ _ _ t H) as X. rewrite <- E in X.
  pose proof (codec_msg m [] S) as Y. rewrite app_nil_r in Y. rewrite X in Y. injection Y as _ Y.
  apply app_eq_nil in Y as [_ Y]. done.
Qed.
(** A truncated stream delivers exactly the messages that arrived completely. *)
Lemma receive_truncated ms m s t fuel : Forall sendable ms -> sendable m -> put_msg m = s ++ t -> t <> [] ->
  (length ms <= fuel)%nat -> receive_cmd fuel (put_msgs ms ++ s) = (ms, s).
Proof.
  intros H S E T F. rewrite receive_put_msgs by done.
  destruct (fuel - length ms)%nat as [|n]; cbn [receive_cmd].
  - by rewrite app_nil_r.
  - destruct (get_msg s) as [m' r| |] eqn:G; [|by rewrite app_nil_r|by rewrite app_nil_r].
    by destruct (msg_truncated m s t S E T m' r).
Qed.

(** ** Length-prefixed messages (unused by the code) *)
Lemma put_u32_small n : (n < 2 ^ 32)%N -> (n mod 2 ^ 32 = n)%N.
Proof. intros H. by apply N.mod_small. Qed.
Lemma stream_roundtrip m rest : sendable m -> (N.of_nat (length (put_msg m)) < 2 ^ 32)%N ->
  stream_decode (stream_encode m ++ rest) = DOk m rest.
Proof.
  intros S L. unfold stream_decode, stream_encode, put_be32. rewrite put_u32_small by done.
  set (n := N.of_nat (length (put_msg m))) in *.
  assert (Ln : length (rev (put_u32 n)) = 4%nat) by (rewrite rev_length; apply put_le_length).
  rewrite <- app_assoc. rewrite app_length, Ln.
  replace (4 + length (put_msg m ++ rest) <? 4)%nat with false by lia.
  rewrite firstn_app, Ln, Nat.sub_diag, firstn_O, app_nil_r, firstn_all2 by (rewrite Ln; lia).
  rewrite rev_involutive.
  pose proof (codec_u32 n [] L) as C. rewrite app_nil_r in C. rewrite C. cbv zeta.
  rewrite skipn_app, Ln, Nat.sub_diag, skipn_O, skipn_all2 by (rewrite Ln; lia). cbn [app].
  rewrite app_length. replace (N.of_nat (length (put_msg m) + length rest) <? n)%N with false by (unfold n; lia).
  assert (Nn : N.to_nat n = length (put_msg m)) by (unfold n; lia). rewrite Nn.
  rewrite firstn_app, Nat.sub_diag, firstn_O, app_nil_r, firstn_all.
  pose proof (codec_msg m [] S) as Cm. rewrite app_nil_r in Cm. rewrite Cm.
  by rewrite skipn_app, Nat.sub_diag, skipn_O, skipn_all.
Qed.

(** ** DUMP and RESTORE *)
Lemma dump_reply ho t k b v : db_raw b k = Some v -> alive t v = true ->
  snd (db_read ho t (RDump k) b) = OOk (POptBytes (Some (put_value ho (touch t v)))).
Proof.
  intros R AL. rewrite (proj2 (db_read_unfold _ _ _ _)). cbn [snd rkey rapply]. unfold dump_apply, dict_get.
  unfold db_raw in R. rewrite R, AL. done.
Qed.
Lemma dump_absent ho t k b : db_view t b k = None -> snd (db_read ho t (RDump k) b) = OOk (POptBytes None).
Proof.
  intros V. rewrite (proj2 (db_read_unfold _ _ _ _)). cbn [snd rkey rapply]. unfold dump_apply, dict_get.
  unfold db_view, view, contents in V. destruct (inner (b (get_slot k)) !! k) as [v|]; cbn in *; [|done].
  destruct (decide (lives t (v_exp v))) as [|L]; [done|]. destruct (alive t v) eqn:AL; [|done].
  by apply alive_lives in AL.
Qed.
Lemma touch_fits t v : value_fits v -> (t / 60000 < 2 ^ 64)%N -> data_fits (v_data (touch t v)).
Proof. intros (F & _ & _) _. exact F. Qed.
Lemma payload_data ho v : horder_ok ho -> data_fits (v_data v) -> deserialize get_data (put_value ho v) = OOk (v_data v).
Proof. intros H F. unfold deserialize, put_value. by rewrite (codec_data ho H). Qed.

Lemma restore_view now r d : r_replace r = true \/ view now d (r_key r) = None ->
  forall x, deserialize get_data (r_value r) = OOk x ->
  snd (fst (restore_apply now r d)) = OOk tt /\
  contents (fst (fst (restore_apply now r d))) (r_key r) = Some (x, r_exp r).
Proof.
  intros H x E. unfold restore_apply. pose proof (dict_get_case now (r_key r) d) as G.
  destruct (dict_get now (r_key r) d) as [d1 o] eqn:Q. rewrite E.
  assert (X : o = None \/ r_replace r = true).
  { destruct H as [|V]; [by right|left]. unfold dict_get in Q. unfold view, contents in V.
    destruct (inner d !! r_key r) as [v|]; [|by injection Q as _ <-]. cbn in V.
    destruct (decide (lives now (v_exp v))) as [|L]; [done|]. destruct (alive now v) eqn:AL; [by apply alive_lives in AL|].
    by injection Q as _ <-. }
  destruct o as [v|]; [destruct X as [X|X]; [done|rewrite X]|]; (split; [by destruct (r_replace r)|]);
    try (destruct (r_replace r)); cbn [fst snd]; apply contents_put.
Qed.
Lemma restore_busy now r d x e : view now d (r_key r) = Some (x, e) -> r_replace r = false ->
  restore_apply now r d = (fst (dict_get now (r_key r) d), OErr EBusyKey, None).
Proof.
  intros V R. unfold restore_apply, dict_get. unfold view, contents in V. destruct (inner d !! r_key r) as [v|]; [|done].
  cbn in V. destruct (decide (lives now (v_exp v))) as [L|]; [|done]. rewrite (proj2 (alive_lives now v) L).
  by rewrite R.
Qed.
Lemma restore_malformed now r d : (forall x, deserialize get_data (r_value r) <> OOk x) ->
  (forall u, snd (fst (restore_apply now r d)) <> OOk u) /\ same_contents d (fst (fst (restore_apply now r d))) /\
  snd (restore_apply now r d) = None.
Proof.
  intros M. unfold restore_apply. pose proof (dict_get_same now (r_key r) d) as G.
  destruct (dict_get now (r_key r) d) as [d1 o]. cbn [fst] in G.
  destruct o as [v|]; destruct (r_replace r); try (split; [done|done]);
  destruct (deserialize get_data (r_value r)) as [x| |]; try done; by destruct (M x).
Qed.
