(** Lemmas about the wire protocol. *)
From Verif Require Export SpecFrame BytesFacts.

(** ** Decisions are stable under more input *)
Definition ext2 {A} (g g' : parser A) : Prop :=
  forall i t, (forall a r, g i = POk a r -> g' (i ++ t) = POk a (r ++ t)) /\ (g i = PError -> g' (i ++ t) = PError).

Lemma ext2_ret {A} (a : A) : ext2 (pret a) (pret a).
Proof. intros i t. split; [|done]. intros b r H. by injection H as <- <-. Qed.
Lemma ext2_bind {A B} (f f' : parser A) (g g' : A -> parser B) :
  ext2 f f' -> (forall a, ext2 (g a) (g' a)) -> ext2 (pbind f g) (pbind f' g').
Proof.
  intros F G i t. unfold pbind. destruct (F i t) as [F1 F2]. destruct (f i) as [a r| |].
  - rewrite (F1 a r eq_refl). apply G.
  - done.
  - rewrite (F2 eq_refl). done.
Qed.
Lemma ext2_alt {A} (f f' g g' : parser A) : ext2 f f' -> ext2 g g' -> ext2 (palt f g) (palt f' g').
Proof.
  intros F G i t. unfold palt. destruct (F i t) as [F1 F2]. destruct (f i) as [a r| |].
  - rewrite (F1 a r eq_refl). split; [|done]. intros b r' H. by injection H as <- <-.
  - done.
  - rewrite (F2 eq_refl). apply G.
Qed.
Lemma ext2_tag s : ext2 (ptag s) (ptag s).
Proof.
  induction s as [|a s IH]; intros i t; [apply (ext2_ret tt)|].
  destruct i as [|b i]; [done|]. cbn [app ptag]. destruct (byte_eq_dec a b); [apply IH|done].
Qed.
Lemma ext2_line : ext2 take_line take_line.
Proof.
  intros i. induction i as [|c i IH]; intros t; [done|]. cbn [app take_line]. destruct (not_crlf c).
  - destruct (IH t) as [H1 H2]. destruct (take_line i) as [l r| |].
    + rewrite (H1 l r eq_refl). split; [|done]. intros b r' H. by injection H as <- <-.
    + done.
    + rewrite (H2 eq_refl). done.
  - split; [|done]. intros b r H. by injection H as <- <-.
Qed.
Lemma ext2_line1 : ext2 take_line1 take_line1.
Proof.
  intros [|c i] t; [done|]. cbn [app take_line1]. destruct (not_crlf c); [apply (ext2_line (c :: i) t)|done].
Qed.
Lemma ext2_take n : ext2 (take_n n) (take_n n).
Proof.
  intros i t. unfold take_n. destruct (N.ltb_spec (N.of_nat (length i)) n) as [L|L]; [done|].
  split; [|done]. intros a r H. injection H as <- <-. rewrite app_length.
  replace (N.of_nat (length i + length t) <? n)%N with false by lia.
  rewrite firstn_app, skipn_app. replace (N.to_nat n - length i)%nat with 0%nat by lia.
  by rewrite firstn_O, skipn_O, app_nil_r.
Qed.
Lemma ext2_elems g g' : ext2 g g' -> forall f1 f2 n i t, (f1 <= f2)%nat ->
  (forall l r, parse_elems f1 g n i = POk l r -> parse_elems f2 g' n (i ++ t) = POk l (r ++ t)) /\
  (parse_elems f1 g n i = PError -> parse_elems f2 g' n (i ++ t) = PError).
Proof.
  intros E. induction f1 as [|f1 IH]; intros f2 n i t F; cbn [parse_elems].
  - destruct (n =? 0)%N eqn:Z; [|done]. split; [|done]. intros l r H. injection H as <- <-.
    destruct f2; cbn [parse_elems]; by rewrite Z.
  - destruct f2 as [|f2]; [lia|]. cbn [parse_elems]. destruct (n =? 0)%N eqn:Z.
    + split; [|done]. intros l r H. by injection H as <- <-.
    + destruct (E i t) as [E1 E2]. destruct (g i) as [a i'| |].
      * rewrite (E1 a i' eq_refl). destruct (IH f2 (n - 1)%N i' t ltac:(lia)) as [I1 I2].
        destruct (parse_elems f1 g (n - 1) i') as [l r| |].
        -- rewrite (I1 l r eq_refl). split; [|done]. intros l' r' H. by injection H as <- <-.
        -- done.
        -- rewrite (I2 eq_refl). done.
      * done.
      * rewrite (E2 eq_refl). done.
Qed.
Lemma ext2_simple : ext2 parse_simple parse_simple.
Proof. repeat (apply ext2_bind; [|intros ?]); auto using ext2_tag, ext2_line, (ext2_ret (A:=frame)). Qed.
Lemma ext2_error : ext2 parse_error parse_error.
Proof. repeat (apply ext2_bind; [|intros ?]); auto using ext2_tag, ext2_line1, (ext2_ret (A:=frame)). Qed.
Lemma ext2_int : ext2 parse_int parse_int.
Proof. repeat (apply ext2_bind; [|intros ?]); auto using ext2_tag, ext2_line1, (ext2_ret (A:=frame)). Qed.
Lemma ext2_bulk : ext2 parse_bulk parse_bulk.
Proof.
  unfold parse_bulk. apply ext2_bind; [apply ext2_tag|intros _]. apply ext2_bind; [apply ext2_line1|intros l].
  apply ext2_bind; [apply ext2_tag|intros _]. destruct (atoi_or_0 l <? 0)%Z; [apply ext2_ret|].
  apply ext2_bind; [apply ext2_take|intros d]. apply ext2_bind; [apply ext2_tag|intros _]. apply ext2_ret.
Qed.
Lemma ext2_ping : ext2 parse_ping parse_ping.
Proof. apply ext2_bind; [apply ext2_tag|intros _; apply ext2_ret]. Qed.
Lemma ext2_array g g' : ext2 g g' -> ext2 (parse_array g) (parse_array g').
Proof.
  intros E. unfold parse_array. apply ext2_bind; [apply ext2_tag|intros _]. apply ext2_bind; [apply ext2_line1|intros l].
  apply ext2_bind; [apply ext2_tag|intros _]. destruct (atoi_or_0 l <? 0)%Z; [apply ext2_ret|].
  intros i t. destruct (ext2_elems g g' E (S (length i)) (S (length (i ++ t))) (Z.to_N (atoi_or_0 l)) i t) as [H1 H2];
    [rewrite app_length; lia|].
  destruct (parse_elems (S (length i)) g _ i) as [fs r| |].
  - rewrite (H1 fs r eq_refl). split; [|done]. intros a r' H. by injection H as <- <-.
  - done.
  - rewrite (H2 eq_refl). done.
Qed.
Lemma ext2_parse_alt f1 f2 : (f1 <= f2)%nat -> ext2 (parse_alt f1) (parse_alt f2).
Proof.
  revert f2; induction f1 as [|f1 IH]; intros f2 F; [done|]. destruct f2 as [|f2]; [lia|]. cbn [parse_alt].
  repeat apply ext2_alt;
    auto using ext2_simple, ext2_error, ext2_int, ext2_bulk, ext2_ping. apply ext2_array, IH. lia.
Qed.
Lemma parse_stable i t : (forall f r, parse i = POk f r -> parse (i ++ t) = POk f (r ++ t)) /\
  (parse i = PError -> parse (i ++ t) = PError).
Proof. apply ext2_parse_alt. rewrite app_length. lia. Qed.

(** ** Progress: a frame takes at least one byte *)
Lemma pbind_ok {A B} (f : parser A) (g : A -> parser B) i b r :
  pbind f g i = POk b r -> exists a i', f i = POk a i' /\ g a i' = POk b r.
Proof. unfold pbind. destruct (f i) as [a i'| |] eqn:E; [|done|done]. by exists a, i'. Qed.
Lemma tag_ok s i u r : ptag s i = POk u r -> i = s ++ r.
Proof.
  revert i; induction s as [|a s IH]; intros i; cbn; [intros H; by injection H|].
  destruct i as [|b i]; [done|]. destruct (byte_eq_dec a b) as [->|]; [|done]. intros H. by rewrite (IH _ H).
Qed.
Lemma line_ok i l r : take_line i = POk l r -> i = l ++ r.
Proof.
  revert l r; induction i as [|c i IH]; intros l r; cbn; [done|]. destruct (not_crlf c).
  - destruct (take_line i) as [l' r'| |]; [|done|done]. intros H. injection H as <- <-. cbn. by rewrite <- IH.
  - intros H. by injection H as <- <-.
Qed.
Lemma line1_ok i l r : take_line1 i = POk l r -> i = l ++ r.
Proof. destruct i as [|c i]; [done|]. cbn [take_line1]. destruct (not_crlf c); [apply line_ok|done]. Qed.
Lemma take_ok n i d r : take_n n i = POk d r -> i = d ++ r.
Proof.
  unfold take_n. destruct (_ <? _)%N; [done|]. intros H. injection H as <- <-. by rewrite firstn_skipn.
Qed.
Lemma elems_ok fuel g n i l r : (forall j f k, g j = POk f k -> (length k < length j)%nat) ->
  parse_elems fuel g n i = POk l r -> (length r <= length i)%nat.
Proof.
  intros G. revert n i l r; induction fuel as [|fuel IH]; intros n i l r; cbn [parse_elems].
  - destruct (n =? 0)%N; [|done]. intros H. by injection H as <- <-.
  - destruct (n =? 0)%N; [intros H; by injection H as <- <-|].
    destruct (g i) as [a i'| |] eqn:E; [|done|done]. apply G in E.
    destruct (parse_elems fuel g (n - 1) i') as [l' r'| |] eqn:E2; [|done|done].
    intros H. injection H as <- <-. apply IH in E2. lia.
Qed.
Ltac unbind H :=
  repeat (apply pbind_ok in H; let a := fresh "a" in let i := fresh "i" in let H1 := fresh "H" in
    destruct H as (a & i & H1 & H);
    first [apply tag_ok in H1 | apply line1_ok in H1 | apply line_ok in H1 | apply take_ok in H1]; subst).
Lemma palt_ok {A} (f g : parser A) i a r : palt f g i = POk a r -> f i = POk a r \/ g i = POk a r.
Proof. unfold palt. destruct (f i); auto. Qed.
Lemma alt_progress fuel i f r : parse_alt fuel i = POk f r -> (length r < length i)%nat.
Proof.
  revert i f r; induction fuel as [|fuel IH]; intros i f r; cbn [parse_alt]; [done|].
  intros H. repeat (apply palt_ok in H as [H|H]).
  - unfold parse_simple in H. unbind H. injection H as <- <-. cbn. rewrite ?app_length; cbn. lia.
  - unfold parse_error in H. unbind H. injection H as <- <-. cbn. rewrite ?app_length; cbn. lia.
  - unfold parse_int in H. unbind H. injection H as <- <-. cbn. rewrite ?app_length; cbn. lia.
  - unfold parse_bulk in H. unbind H. destruct (_ <? 0)%Z.
    + injection H as <- <-. cbn. rewrite ?app_length; cbn. lia.
    + unbind H. injection H as <- <-. cbn. rewrite ?app_length; cbn. rewrite ?app_length; cbn. lia.
  - unfold parse_array in H. unbind H. destruct (_ <? 0)%Z.
    + injection H as <- <-. cbn. rewrite ?app_length; cbn. lia.
    + destruct (parse_elems _ _ _ _) as [fs r'| |] eqn:E; [|done|done]. injection H as <- <-.
      apply elems_ok in E; [|exact IH]. cbn. rewrite ?app_length; cbn. lia.
  - unfold parse_ping in H. unbind H. injection H as <- <-. cbn. lia.
Qed.
Lemma parse_progress i f r : parse i = POk f r -> (length r < length i)%nat.
Proof. apply alt_progress. Qed.

(** ** The fuel never runs out *)
Lemma elems_agree g g' fuel n i : (forall j, (length j <= length i)%nat -> g j = g' j) ->
  (forall j f k, g j = POk f k -> (length k < length j)%nat) ->
  parse_elems fuel g n i = parse_elems fuel g' n i.
Proof.
  intros G P. revert n i G; induction fuel as [|fuel IH]; intros n i G; cbn [parse_elems]; [done|].
  destruct (n =? 0)%N; [done|]. rewrite <- (G i) by lia. destruct (g i) as [a i'| |] eqn:E; [|done|done].
  apply P in E. rewrite IH; [done|]. intros j L. apply G. lia.
Qed.
Lemma parse_fuel f1 f2 i : (length i < f1)%nat -> (length i < f2)%nat -> parse_alt f1 i = parse_alt f2 i.
Proof.
  revert f2 i; induction f1 as [|f1 IH]; intros f2 i L1 L2; [lia|]. destruct f2 as [|f2]; [lia|]. cbn [parse_alt].
  unfold palt at 1 6. destruct (parse_simple i); [done|done|].
  unfold palt at 1 5. destruct (parse_error i); [done|done|].
  unfold palt at 1 4. destruct (parse_int i); [done|done|].
  unfold palt at 1 3. destruct (parse_bulk i); [done|done|].
  unfold palt.
  assert (E : parse_array (parse_alt f1) i = parse_array (parse_alt f2) i); [|by rewrite E].
  unfold parse_array, pbind. destruct (ptag (bs "*") i) as [u i1| |] eqn:T1; [|done|done]. apply tag_ok in T1.
  destruct (take_line1 i1) as [l i2| |] eqn:T2; [|done|done]. apply line1_ok in T2.
  destruct (ptag CRLF i2) as [u' i3| |] eqn:T3; [|done|done]. apply tag_ok in T3. subst.
  destruct (_ <? 0)%Z; [done|]. rewrite (elems_agree (parse_alt f1) (parse_alt f2)); [done| |apply alt_progress].
  intros j L. apply IH; cbn in L1, L2; rewrite ?app_length in L1, L2; cbn in L1, L2; lia.
Qed.
Lemma elems_fuel g f1 f2 n i : (length i < f1)%nat -> (length i < f2)%nat ->
  (forall j f k, g j = POk f k -> (length k < length j)%nat) ->
  parse_elems f1 g n i = parse_elems f2 g n i.
Proof.
  intros L1 L2 G. revert f2 n i L1 L2; induction f1 as [|f1 IH]; intros f2 n i L1 L2; [lia|].
  destruct f2 as [|f2]; [lia|]. cbn [parse_elems]. destruct (n =? 0)%N; [done|].
  destruct (g i) as [a i'| |] eqn:E; [|done|done]. apply G in E. by rewrite (IH f2) by lia.
Qed.

(** ** Round trip *)
Lemma not_crlf_spec c : not_crlf c = true <-> c <> CR /\ c <> LF.
Proof.
  unfold not_crlf. rewrite andb_true_iff, !negb_true_iff, !bool_decide_eq_false. done.
Qed.
Lemma tag_app s r : ptag s (s ++ r) = POk tt r.
Proof. induction s as [|a s IH]; cbn; [done|]. by destruct (byte_eq_dec a a). Qed.
Lemma line_app b r : one_line b -> take_line (b ++ CRLF ++ r) = POk b (CRLF ++ r).
Proof.
  induction b as [|c b IH]; intros [H1 H2]; [done|]. cbn [app take_line].
  rewrite (proj2 (not_crlf_spec c)) by (split; intros ->; [apply H1|apply H2]; by left).
  cbn [app] in IH. rewrite IH; [done|]. split; intros H; [apply H1|apply H2]; by right.
Qed.
Lemma line1_app b r : b <> [] -> one_line b -> take_line1 (b ++ CRLF ++ r) = POk b (CRLF ++ r).
Proof.
  intros N H. destruct b as [|c b]; [done|]. unfold take_line1. cbn [app].
  assert (not_crlf c = true) as ->.
  { apply not_crlf_spec. destruct H as [H1 H2]. split; intros ->; [apply H1|apply H2]; by left. }
  exact (line_app (c :: b) r H).
Qed.
Lemma digits_one_line fuel n : one_line (show_digits fuel n).
Proof.
  pose proof (show_digits_all fuel n) as F. rewrite Forall_forall in F.
  split; intros H; specialize (F _ H); vm_compute in F; done.
Qed.
Lemma show_N_one_line n : one_line (show_N n) /\ show_N n <> [].
Proof.
  split; [apply digits_one_line|]. destruct (show_N_cons n) as (b & r & -> & _). done.
Qed.
Lemma show_Z_one_line z : one_line (show_Z z) /\ show_Z z <> [].
Proof.
  unfold show_Z. destruct (z <? 0)%Z; [|apply show_N_one_line]. destruct (show_N_one_line (Z.to_N (- z))) as [[H1 H2] _].
  split; [|done]. split; intros [E|E]; try done; auto.
Qed.
Lemma atoi_show_N n : (n < 2 ^ 63)%N -> atoi_or_0 (show_N n) = Z.of_N n.
Proof.
  intros H. unfold atoi_or_0.
  assert (E : show_N n = show_Z (Z.of_N n) ++ []).
  { rewrite app_nil_r. unfold show_Z. replace (Z.of_N n <? 0)%Z with false by lia. by rewrite N2Z.id. }
  rewrite E, atoi_show_Z; [done| |done]. unfold is_i64, i64_min, i64_max, z_two63. lia.
Qed.
Lemma atoi_show_i z : (- 2 ^ 63 <= z < 2 ^ 63)%Z -> atoi_or_0 (show_Z z) = z.
Proof.
  intros H. unfold atoi_or_0. rewrite <- (app_nil_r (show_Z z)), atoi_show_Z; [done| |done].
  unfold is_i64, i64_min, i64_max, z_two63. lia.
Qed.

Definition wf_all (l : list frame) : Prop :=
  (fix all (l : list frame) : Prop := match l with [] => True | x :: l' => wf_frame x /\ all l' end) l.
Lemma wf_all_Forall l : wf_all l <-> Forall wf_frame l.
Proof.
  induction l as [|x l IH]; cbn; [split; [constructor|done]|]. change ((fix all (l : list frame) : Prop :=
    match l with [] => True | x :: l' => wf_frame x /\ all l' end) l) with (wf_all l). rewrite IH.
  split; [intros [? ?]; by constructor|intros H; by inversion H].
Qed.
Lemma write_pos f : wf_frame f -> (0 < length (write f))%nat.
Proof. destruct f; cbn; try done; intros; lia. Qed.

Lemma elems_write g (l : list frame) rest fuel :
  Forall (fun f => (0 < length (write f))%nat /\ forall r, g (write f ++ r) = POk f r) l ->
  (length (concat (map write l) ++ rest) < fuel)%nat ->
  parse_elems fuel g (N.of_nat (length l)) (concat (map write l) ++ rest) = POk l rest.
Proof.
  intros H. revert fuel; induction H as [|f l [Hp Hf] _ IH]; intros fuel F.
  - by destruct fuel.
  - cbn [map concat length] in *. rewrite <- app_assoc in *. rewrite app_length in F.
    destruct fuel as [|fuel]; [lia|]. cbn [parse_elems].
    replace (N.of_nat (S (length l)) =? 0)%N with false by lia. rewrite Hf.
    replace (N.of_nat (S (length l)) - 1)%N with (N.of_nat (length l)) by lia. by rewrite IH by lia.
Qed.

Lemma write_length_elem x l : In x l -> (length (write x) <= length (concat (map write l)))%nat.
Proof.
  induction l as [|y l IH]; [done|]. intros [->|H]; cbn; rewrite app_length; [lia|]. specialize (IH H). lia.
Qed.
Lemma alt_write n f rest : (length (write f) <= n)%nat -> wf_frame f -> forall fuel, (n < fuel)%nat ->
  parse_alt fuel (write f ++ rest) = POk f rest.
Proof.
  revert f rest; induction n as [|n IH]; intros f rest L W fuel F.
  { pose proof (write_pos f W). lia. }
  destruct fuel as [|fuel]; [lia|].
  destruct f as [| |b|b|b|z| |l|]; try done; cbn [parse_alt write] in *.
  - (* simple *)
    unfold palt at 1. unfold parse_simple, pbind. rewrite <- !app_assoc, tag_app, line_app by done. by rewrite tag_app.
  - (* bulk *)
    destruct (show_N_one_line (N.of_nat (length b))) as [O Ne]. rewrite <- !app_assoc.
    unfold palt at 1. cbn [parse_simple pbind ptag bs].
    change (parse_simple (bs "$" ++ ?x)) with (@PError frame).
    change (parse_error (bs "$" ++ ?x)) with (@PError frame). cbv iota.
    assert (P : parse_bulk (bs "$" ++ show_N (N.of_nat (length b)) ++ CRLF ++ b ++ CRLF ++ rest) = POk (FBulk b) rest).
    { unfold parse_bulk, pbind. rewrite tag_app, line1_app by done. rewrite tag_app, atoi_show_N by done.
      replace (Z.of_N (N.of_nat (length b)) <? 0)%Z with false by lia.
      unfold take_n. rewrite N2Z.id, app_length. replace (_ <? _)%N with false by lia.
      rewrite Nat2N.id, firstn_app, skipn_app, Nat.sub_diag, firstn_all, skipn_all, firstn_O, skipn_O, app_nil_r.
      cbn [app]. by rewrite tag_app. }
    unfold palt. cbn [parse_simple parse_error parse_int pbind ptag app bs]. rewrite P. done.
  - (* error *)
    destruct W as [N O]. rewrite <- !app_assoc.
    assert (P : parse_error (bs "-" ++ b ++ CRLF ++ rest) = POk (FError b) rest).
    { unfold parse_error, pbind. rewrite tag_app, line1_app by done. by rewrite tag_app. }
    unfold palt. rewrite P. done.
  - (* integer *)
    destruct (show_Z_one_line z) as [O Ne]. rewrite <- !app_assoc.
    assert (P : parse_int (bs ":" ++ show_Z z ++ CRLF ++ rest) = POk (FInteger z) rest).
    { unfold parse_int, pbind. rewrite tag_app, line1_app by done. rewrite tag_app. unfold pret. by rewrite atoi_show_i. }
    unfold palt. rewrite P. done.
  - (* array *)
    destruct W as [Wn Wl]. change (wf_all l) in Wl. apply wf_all_Forall in Wl.
    destruct (show_N_one_line (N.of_nat (length l))) as [O Ne]. rewrite <- !app_assoc.
    assert (P : parse_array (parse_alt fuel) (bs "*" ++ show_N (N.of_nat (length l)) ++ CRLF ++ concat (map write l) ++ rest) = POk (FArray l) rest).
    { unfold parse_array, pbind. rewrite tag_app, line1_app by done. rewrite tag_app, atoi_show_N by done.
      replace (Z.of_N (N.of_nat (length l)) <? 0)%Z with false by lia. rewrite N2Z.id.
      rewrite elems_write; [done| |lia].
      apply Forall_forall. intros f Hf. rewrite Forall_forall in Wl. split; [by apply write_pos, Wl|].
      intros r. apply IH; [|by apply Wl|lia]. pose proof (write_length_elem f l Hf).
      cbn in L. rewrite !app_length in L. cbn in L. lia. }
    unfold palt. rewrite P. done.
Qed.
Lemma parse_write f rest : wf_frame f -> parse (write f ++ rest) = POk f rest.
Proof. intros W. unfold parse. apply (alt_write (length (write f ++ rest))); [rewrite app_length; lia|done|lia]. Qed.

(** ** Connections *)
(** The meaning of a complete byte stream. *)
Fixpoint stream_frames (fuel : nat) (s : bytes) : list frame * conn_end :=
  match fuel with
  | O => ([], EndReset)
  | S fuel' =>
      match parse s with
      | POk f r => let '(fs, e) := stream_frames fuel' r in (f :: fs, e)
      | PError => ([], EndParse)
      | PIncomplete => ([], if bool_decide (s = []) then EndClean else EndReset)
      end
  end.
Lemma read_frame_spec chunks buf : Forall (fun c => c <> []) chunks ->
  match parse (buf ++ concat chunks) with
  | POk f r => exists buf' cs, read_frame chunks buf = inl (f, buf', cs) /\ buf' ++ concat cs = r /\ Forall (fun c => c <> []) cs
  | PError => read_frame chunks buf = inr EndParse
  | PIncomplete => read_frame chunks buf = inr (if bool_decide (buf ++ concat chunks = []) then EndClean else EndReset)
  end.
Proof.
  intros H. revert buf; induction H as [|c cs Hc Hcs IH]; intros buf.
  - cbn [concat read_frame]. rewrite app_nil_r. destruct (parse buf) as [f r| |]; [|done|done].
    exists r, []. split; [done|]. cbn. by rewrite app_nil_r.
  - cbn [read_frame concat]. destruct (parse_stable buf (c ++ concat cs)) as [S1 S2].
    destruct (parse buf) as [f r| |].
    + rewrite (S1 f r eq_refl). exists r, (c :: cs). split; [done|]. split; [done|]. by constructor.
    + rewrite app_assoc. specialize (IH (buf ++ c)). destruct c as [|a c]; [done|]. exact IH.
    + by rewrite (S2 eq_refl).
Qed.
Lemma conn_frames_stream fuel chunks buf : Forall (fun c => c <> []) chunks ->
  conn_frames fuel chunks buf = stream_frames fuel (buf ++ concat chunks).
Proof.
  revert chunks buf; induction fuel as [|fuel IH]; intros chunks buf H; [done|]. cbn [conn_frames stream_frames].
  pose proof (read_frame_spec chunks buf H) as R. destruct (parse (buf ++ concat chunks)) as [f r| |].
  - destruct R as (buf' & cs & -> & <- & Hcs). by rewrite IH.
  - by rewrite R.
  - by rewrite R.
Qed.
Lemma stream_fuel f1 f2 s : (length s < f1)%nat -> (length s < f2)%nat -> stream_frames f1 s = stream_frames f2 s.
Proof.
  revert f2 s; induction f1 as [|f1 IH]; intros f2 s L1 L2; [lia|]. destruct f2 as [|f2]; [lia|]. cbn [stream_frames].
  destruct (parse s) as [f r| |] eqn:E; [|done|done]. apply parse_progress in E. by rewrite (IH f2) by lia.
Qed.
Lemma concat_nonempty (s : bytes) : concat (if bool_decide (s = []) then [] else [s]) = s.
Proof. destruct (bool_decide_reflect (s = [])) as [->|]; cbn; [done|]. by rewrite app_nil_r. Qed.
Lemma segmentation chunks : Forall (fun c => c <> []) chunks ->
  conn_requests chunks = stream_frames (S (length (concat chunks))) (concat chunks).
Proof. intros H. unfold conn_requests. by rewrite conn_frames_stream. Qed.
Lemma stream_writes fs fuel : Forall wf_frame fs -> (length (concat (map write fs)) < fuel)%nat ->
  stream_frames fuel (concat (map write fs)) = (fs, EndClean).
Proof.
  intros H. revert fuel; induction H as [|f fs Hf _ IH]; intros fuel F.
  - destruct fuel; [cbn in F; lia|reflexivity].
  - destruct fuel as [|fuel]; [lia|]. cbn [map concat stream_frames] in *. rewrite parse_write by done.
    pose proof (write_pos f Hf). rewrite app_length in F. by rewrite IH by lia.
Qed.
