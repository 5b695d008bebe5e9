(** Lemmas about the snapshot stream, the follower's task and the fan-out. *)
From Verif Require Export ReplicaFacts BincodeFacts.

(** ** Little-endian integers cut at the wrong places *)
Lemma get_le_mod n x r : get_le n (put_le n x ++ r) = DOk (x mod 256 ^ N.of_nat n)%N r.
Proof.
  revert x; induction n as [|n IH]; intros x; cbn [put_le get_le app].
  - cbn. by rewrite N.mod_1_r.
  - rewrite IH. rewrite to_N_byte_of_N. f_equal.
    replace (256 ^ N.of_nat (Datatypes.S n))%N with (256 * 256 ^ N.of_nat n)%N by (rewrite Nat2N.inj_succ, N.pow_succ_r'; done).
    rewrite N.mod_mul_r by (try lia; apply N.pow_nonzero; lia). done.
Qed.

Lemma put_le_split a b x : put_le (a + b) x = put_le a x ++ put_le b (x / 256 ^ N.of_nat a).
Proof.
  revert x; induction a as [|a IH]; intros x; cbn [put_le app Nat.add].
  - by rewrite N.div_1_r.
  - rewrite IH. do 3 f_equal. rewrite Nat2N.inj_succ, N.pow_succ_r', N.div_div; [done|lia|apply N.pow_nonzero; lia].
Qed.

Lemma get_le_split a b s :
  get_le (a + b) s = match get_le a s with
                     | DOk x s1 => match get_le b s1 with
                                   | DOk y r => DOk (x + 256 ^ N.of_nat a * y)%N r
                                   | DErr => DErr | DPanic => DPanic
                                   end
                     | DErr => DErr | DPanic => DPanic
                     end.
Proof.
  revert s; induction a as [|a IH]; intros s; cbn [get_le Nat.add].
  - unfold dret. destruct (get_le b s); try done. f_equal. cbn [N.of_nat]. rewrite N.pow_0_r. lia.
  - destruct s as [|c s]; [done|]. rewrite IH. destruct (get_le a s) as [x s1| |]; try done.
    destruct (get_le b s1) as [y r| |]; try done. f_equal. rewrite Nat2N.inj_succ, N.pow_succ_r'. lia.
Qed.

Lemma get_elems_fuel {A} (g : dec A) fuel n s l r : get_elems fuel g n s = DOk l r -> (n <= N.of_nat fuel)%N.
Proof.
  revert n s l r; induction fuel as [|fuel IH]; intros n s l r; cbn [get_elems].
  - destruct (n =? 0)%N eqn:E; [lia|done].
  - destruct (n =? 0)%N eqn:E; [lia|]. destruct (g s) as [a s'| |]; try done.
    destruct (get_elems fuel g (n - 1) s') as [l' r'| |] eqn:G; try done. intros _. apply IH in G. lia.
Qed.

Definition shifted_id (d : dict) : N := (write_id d * 2 ^ 48)%N.

(** The first turn of the reading loop on a stream that starts with slot [i] and dictionary [d]. *)
Lemma read_shifted ho i d rest :
  horder_ok ho -> (i < slot_size)%N -> (write_id d < 2 ^ 16)%N -> (N.of_nat (size (inner d)) < 2 ^ 16)%N ->
  (N.of_nat (length (put_dict ho d ++ rest)) < 2 ^ 48)%N ->
  read_item (put_option put_u64 (Some i) ++ put_dict ho d ++ rest) =
    if decide (inner d = ∅) then IInstall i (Dict (shifted_id d) ∅) (put_le 6 0 ++ rest)
    else IFail.
Proof.
  intros HO Hi Hw Hn HL. unfold read_item, put_option, put_dict, put_seq.
  set (body := concat (map (put_pair put_bytes (put_value ho)) (ho value (inner d)))).
  assert (Len : length (ho value (inner d)) = size (inner d)).
  { rewrite (Permutation_length (HO value (inner d))). reflexivity. }
  assert (HB : (N.of_nat (length (body ++ rest)) + 16 < 2 ^ 48)%N).
  { unfold put_dict, put_seq, put_u64 in HL. fold body in HL. rewrite !app_length, !put_le_length in *. lia. }
  rewrite Len. set (n := N.of_nat (size (inner d))) in *.
  unfold get_option, dbind at 1. unfold put_u8, get_u8. rewrite <- !app_assoc, get_le_put by done.
  cbn [N.eqb Pos.eqb]. unfold dbind at 1, dret at 1. unfold get_u16, put_u64.
  change 8%nat with (2 + 6)%nat at 1. rewrite put_le_split, <- app_assoc, get_le_mod.
  change (256 ^ N.of_nat 2)%N with 65536%N.
  rewrite N.mod_small by (unfold slot_size in Hi; lia).
  replace (i / 65536)%N with 0%N by (unfold slot_size in Hi; symmetry; apply N.div_small; lia).
  replace (i <? slot_size)%N with true by lia.
  unfold get_dict, dbind at 1, get_u64.
  change 8%nat with (6 + 2)%nat at 1. rewrite get_le_split, get_le_mod.
  change 8%nat with (2 + 6)%nat at 1. rewrite put_le_split, <- app_assoc, get_le_mod.
  change (256 ^ N.of_nat 2)%N with 65536%N. change (256 ^ N.of_nat 6)%N with (2 ^ 48)%N.
  rewrite (N.mod_small (write_id d)) by lia.
  replace (write_id d / 65536)%N with 0%N by (symmetry; apply N.div_small; lia).
  replace (0 mod 2 ^ 48 + 2 ^ 48 * write_id d)%N with (shifted_id d) by (rewrite N.mod_0_l by done; unfold shifted_id; lia).
  unfold dbind at 1, get_seq, get_u64.
  change 8%nat with (6 + 2)%nat at 1. rewrite get_le_split, get_le_mod.
  change 8%nat with (2 + 6)%nat at 1. rewrite put_le_split, <- app_assoc, get_le_mod.
  change (256 ^ N.of_nat 2)%N with 65536%N. change (256 ^ N.of_nat 6)%N with (2 ^ 48)%N.
  rewrite (N.mod_small n) by lia.
  replace (n / 65536)%N with 0%N by (symmetry; apply N.div_small; lia).
  replace (0 mod 2 ^ 48 + 2 ^ 48 * n)%N with (2 ^ 48 * n)%N by (rewrite N.mod_0_l by done; lia).
  destruct (decide (inner d = ∅)) as [E|E].
  - assert (n = 0%N) as -> by (unfold n; by rewrite E, map_size_empty).
    assert (body = []) as -> by (unfold body; destruct (ho value (inner d)); [done|]; rewrite E, map_size_empty in Len; done).
    cbn [N.mul get_elems]. destruct (length (put_le 6 0 ++ [] ++ rest)); reflexivity.
  - assert (Hpos : (0 < n)%N).
    { unfold n. apply map_size_non_empty_iff in E. lia. }
    destruct (get_elems _ _ _ _) as [l r| |] eqn:G; try reflexivity.
    apply get_elems_fuel in G. exfalso. rewrite app_length, put_le_length in G. lia.
Qed.

Lemma snapshot_shifted ho i d l :
  horder_ok ho -> (i < slot_size)%N -> (write_id d < 2 ^ 16)%N -> (N.of_nat (size (inner d)) < 2 ^ 16)%N ->
  (N.of_nat (length (put_snapshot ho ((i, d) :: l))) < 2 ^ 48)%N ->
  read_snapshot (put_snapshot ho ((i, d) :: l)) =
    if decide (inner d = ∅) then ([(i, Dict (shifted_id d) ∅)], true) else ([], false).
Proof.
  intros HO Hi Hw Hn HL. unfold read_snapshot. unfold put_snapshot in *. cbn [map concat fst snd] in *.
  set (rest := concat (map (fun p => put_option put_u64 (Some (fst p)) ++ put_dict ho (snd p)) l) ++ put_option put_u16 None) in *.
  rewrite <- !app_assoc in *. fold rest in HL |- *.
  assert (HL' : (N.of_nat (length (put_dict ho d ++ rest)) < 2 ^ 48)%N).
  { rewrite !app_length in *. lia. }
  destruct (length (put_option put_u64 (Some i) ++ put_dict ho d ++ rest)) as [|[|fuel]] eqn:F.
  1,2: exfalso; rewrite !app_length in F; unfold put_option, put_u8, put_u64 in F; rewrite app_length, !put_le_length in F; lia.
  cbn [read_items]. rewrite (read_shifted ho i d rest) by done.
  destruct (decide (inner d = ∅)); [|done]. reflexivity.
Qed.

(** ** Transfers *)
Lemma with_xfer_in i x y xs z : nth_error xs i = Some y -> In z (with_xfer i x xs) -> x = Some z \/ In z xs.
Proof.
  intros H I. unfold with_xfer in I. apply in_app_iff in I. destruct I as [I|I].
  - right. rewrite <- (firstn_skipn i xs). apply in_app_iff. by left.
  - apply in_app_iff in I. destruct I as [I|I].
    + left. destruct x; [|done]. destruct I as [->|[]]. done.
    + right. rewrite <- (firstn_skipn (Datatypes.S i) xs). apply in_app_iff. by right.
Qed.

(** Nothing that is still to be read, or being installed, unlocks slot [j]. *)
Definition quiet_xfer (j : N) (x : xpc) : Prop :=
  match x with
  | XRead s => ~ offers s j
  | XUnlock i s => i <> j /\ ~ offers s j
  | XConnect _ | XNotify => True
  end.
Definition quiet_event (j : N) (ev : fevent) : Prop := match ev with VOpen _ s => ~ offers s j | _ => True end.

Lemma quiet_with j i y x xs : nth_error xs i = Some y -> Forall (quiet_xfer j) xs ->
  (forall z, x = Some z -> quiet_xfer j z) -> Forall (quiet_xfer j) (with_xfer i x xs).
Proof.
  intros H F Z. apply List.Forall_forall. intros z I. destruct (with_xfer_in _ _ _ _ _ H I) as [E|E]; [by apply Z|].
  rewrite List.Forall_forall in F. by apply F.
Qed.

Lemma locked_step j ev f f' :
  fstep ev f = Some f' -> quiet_event j ev -> fo_locks f j = true -> Forall (quiet_xfer j) (fo_xfers f) ->
  fo_locks f' j = true /\ Forall (quiet_xfer j) (fo_xfers f').
Proof.
  destruct f as [b sy lk pm rx c xs]. cbn [fo_locks fo_xfers]. intros H E L F.
  destruct ev as [m|now| | |i s|i|i]; cbn [fstep] in H.
  - by injection H as <-.
  - cbn [cmd_step] in H. destruct c as [|m|m|m|m|m|].
    + destruct rx; [done|]. by injection H as <-.
    + by injection H as <-.
    + destruct pm; [|done]. by injection H as <-.
    + destruct (process_forward _ _ _ _ _) as [[d o] ms]. by injection H as <-.
    + cbn [sync_snapshot] in H. destruct sy; injection H as <-; [done|].
      cbn [fo_locks fo_xfers]. split; [done|]. apply List.Forall_app. split; [done|]. by constructor.
    + done.
    + done.
  - destruct c; try done. by injection H as <-.
  - cbn [sync_snapshot] in H. destruct sy; injection H as <-; [done|].
    cbn [fo_locks fo_xfers]. split; [done|]. apply List.Forall_app. split; [done|]. by constructor.
  - destruct (nth_error xs i) as [[n|s'|n s'|]|] eqn:X; try done. injection H as <-. cbn [fo_locks fo_xfers].
    split; [done|]. eapply quiet_with; [done..|]. by intros z [= <-].
  - cbn [xfer_step] in H. destruct (nth_error xs i) as [[n|s'|n s'|]|] eqn:X; try done.
    + assert (Q : ~ offers s' j). { rewrite List.Forall_forall in F. apply (F (XRead s')). by eapply nth_error_In. }
      destruct (read_item s') as [k d r| |] eqn:R; injection H as <-; cbn [fo_locks fo_xfers]; (split; [done|]);
        eapply quiet_with; try done; intros z [= <-]; cbn; [|done].
      split; [intros ->; apply Q; by eapply off_here|]. intros O. apply Q. by eapply off_later.
    + assert (Q : n <> j /\ ~ offers s' j). { rewrite List.Forall_forall in F. apply (F (XUnlock n s')). by eapply nth_error_In. }
      injection H as <-. cbn [fo_locks fo_xfers]. replace (j =? n)%N with false by lia. split; [done|].
      eapply quiet_with; try done. intros z [= <-]. cbn. tauto.
    + injection H as <-. cbn [fo_locks fo_xfers]. split; [done|]. eapply quiet_with; done.
  - destruct (nth_error xs i) as [[n|s'|n s'|]|] eqn:X; try done; injection H as <-; cbn [fo_locks fo_xfers];
      (split; [done|]); eapply quiet_with; done.
Qed.

Lemma locked_steps j evs f f' :
  fsteps evs f = Some f' -> Forall (quiet_event j) evs -> fo_locks f j = true -> Forall (quiet_xfer j) (fo_xfers f) ->
  fo_locks f' j = true /\ Forall (quiet_xfer j) (fo_xfers f').
Proof.
  revert f; induction evs as [|ev evs IH]; intros f H E L F; cbn [fsteps] in H; [by injection H as <-|].
  destruct (fstep ev f) as [f1|] eqn:S; [|done]. inversion E; subst.
  destruct (locked_step j ev f f1) as [L1 F1]; try done. by apply (IH f1).
Qed.

(** A task that waits for a slot nobody is going to unlock. *)
Lemma stuck_step ev f f' m :
  fo_cmd f = CAwait m -> fo_locks f (fm_slot m) = true -> fo_permit f = false -> fo_xfers f = [] ->
  ev <> VSyncAll -> fstep ev f = Some f' ->
  fo_cmd f' = CAwait m /\ fo_locks f' = fo_locks f /\ fo_permit f' = false /\ fo_xfers f' = [] /\ fo_db f' = fo_db f.
Proof.
  destruct f as [b sy lk pm rx c xs]. cbn [fo_locks fo_xfers fo_cmd fo_permit fo_db]. intros -> L -> -> E H.
  destruct ev as [m'|now| | |i s|i|i]; cbn [fstep cmd_step xfer_step] in H; try done.
  - injection H as <-. done.
  - by destruct i.
  - by destruct i.
  - by destruct i.
Qed.

Lemma stuck_steps evs f f' m :
  fo_cmd f = CAwait m -> fo_locks f (fm_slot m) = true -> fo_permit f = false -> fo_xfers f = [] ->
  ~ In VSyncAll evs -> fsteps evs f = Some f' -> fo_db f' = fo_db f /\ fo_cmd f' = CAwait m.
Proof.
  revert f; induction evs as [|ev evs IH]; intros f C L P X N H; cbn [fsteps] in H; [by injection H as <-|].
  destruct (fstep ev f) as [f1|] eqn:S; [|done].
  destruct (stuck_step ev f f1 m) as (C1 & L1 & P1 & X1 & D1); try done.
  { intros ->. apply N. by left. }
  rewrite <- D1. apply IH; try done; [by rewrite L1|]. intros I. apply N. by right.
Qed.

(** A transfer that ended with an error. *)
Lemma failed_step ev f f' : fo_syncing f = true -> fo_xfers f = [] -> fstep ev f = Some f' ->
  fo_syncing f' = true /\ fo_xfers f' = [] /\ fo_locks f' = fo_locks f.
Proof.
  destruct f as [b sy lk pm rx c xs]. cbn [fo_syncing fo_xfers fo_locks]. intros -> -> H.
  destruct ev as [m'|now| | |i s|i|i]; cbn [fstep cmd_step xfer_step sync_snapshot] in H.
  - by injection H as <-.
  - destruct c as [|m|m|m|m|m|]; try done.
    + destruct rx; [done|]. by injection H as <-.
    + by injection H as <-.
    + destruct pm; [|done]. by injection H as <-.
    + destruct (process_forward _ _ _ _ _) as [[d o] ms]. by injection H as <-.
    + by injection H as <-.
  - destruct c; try done. by injection H as <-.
  - by injection H as <-.
  - by destruct i.
  - by destruct i.
  - by destruct i.
Qed.
Lemma failed_steps evs f f' : fo_syncing f = true -> fo_xfers f = [] -> fsteps evs f = Some f' ->
  fo_syncing f' = true /\ fo_xfers f' = [] /\ fo_locks f' = fo_locks f.
Proof.
  revert f; induction evs as [|ev evs IH]; intros f S X H; cbn [fsteps] in H; [by injection H as <-|].
  destruct (fstep ev f) as [f1|] eqn:E; [|done].
  destruct (failed_step ev f f1 S X E) as (S1 & X1 & L1). destruct (IH f1 S1 X1 H) as (? & ? & ?).
  split; [done|]. split; [done|]. congruence.
Qed.

(** ** Fan-out *)
Lemma payload_app a b : payload (a ++ b) = payload a ++ payload b.
Proof. apply filter_app. Qed.
Lemma payload_none : payload [msg_none] = [].
Proof. done. Qed.

Lemma at_conn_nth i g cs cs' : at_conn i g cs = Some cs' ->
  exists c c', nth_error cs i = Some c /\ g c = Some c' /\ length cs' = length cs /\
    forall j, nth_error cs' j = if (j =? i)%nat then Some c' else nth_error cs j.
Proof.
  unfold at_conn. destruct (nth_error cs i) as [c|] eqn:E; [|done]. destruct (g c) as [c'|] eqn:G; [|done].
  intros [= <-]. exists c, c'. split; [done|]. split; [done|].
  assert (L : (i < length cs)%nat) by (apply nth_error_Some; congruence).
  assert (LF : length (firstn i cs) = i) by (rewrite firstn_length; lia).
  split.
  { rewrite app_length. cbn [length]. rewrite skipn_length, LF. lia. }
  intros j. destruct (Nat.eqb_spec j i) as [->|Hj].
  - rewrite nth_error_app2, LF, Nat.sub_diag by lia. done.
  - destruct (Nat.lt_ge_cases j i) as [J|J].
    + rewrite nth_error_app1 by lia. rewrite <- (firstn_skipn i cs) at 2. by rewrite nth_error_app1 by lia.
    + rewrite nth_error_app2, LF by lia. rewrite <- (firstn_skipn (Datatypes.S i) cs) at 2.
      assert (LS : length (firstn (Datatypes.S i) cs) = Datatypes.S i) by (rewrite firstn_length; lia).
      rewrite (nth_error_app2 (firstn (Datatypes.S i) cs)), LS by lia.
      destruct (j - i)%nat as [|k] eqn:K; [lia|]. cbn. f_equal. lia.
Qed.

Lemma map_nth_error_eq {A B} (f : A -> B) l i : nth_error (map f l) i = option_map f (nth_error l i).
Proof. revert i; induction l as [|a l IH]; intros [|i]; cbn; try done. Qed.

(** Connection [c] against the messages pushed since it was accepted. *)
Definition keeps_up (c : conn) (l : list fwd_msg) : Prop :=
  Forall (fun m => is_ping m = false) (cn_queue c) /\
  (cn_open c = true -> cn_listed c = true /\ payload (cn_out c) ++ cn_queue c = l) /\
  (exists r, l = payload (cn_out c) ++ r).

Lemma ostep_conn ev cs cs' i c l : ostep ev cs = Some cs' -> nth_error cs i = Some c -> keeps_up c l ->
  Forall (fun m => is_ping m = false) (pushes [ev]) ->
  exists c', nth_error cs' i = Some c' /\ keeps_up c' (l ++ pushes [ev]) /\ (ev <> OFail i -> cn_open c' = cn_open c).
Proof.
  intros H E (Q & O & (r & P)) N. destruct ev as [|m|j|j|j]; cbn [ostep pushes] in *; rewrite ?app_nil_r.
  - injection H as <-. exists c. rewrite nth_error_app1 by (apply nth_error_Some; congruence).
    split; [done|]. split; [|done]. split; [done|]. split; [done|]. by exists r.
  - injection H as <-. rewrite map_nth_error_eq, E. eexists. split; [reflexivity|]. unfold conn_push.
    destruct c as [[] [] q out]; cbn [cn_open cn_listed cn_queue cn_out] in *.
    + destruct (O eq_refl) as [_ O2]. split; [|done]. split; [cbn; apply List.Forall_app; done|].
      cbn [cn_open cn_listed cn_queue cn_out]. split; [intros _; split; [done|]; by rewrite <- O2, app_assoc|].
      exists (r ++ [m]). by rewrite P, app_assoc.
    + by destruct (O eq_refl).
    + split; [|done]. split; [done|]. split; [done|]. exists (r ++ [m]). cbn. by rewrite P, app_assoc.
    + split; [|done]. split; [done|]. split; [done|]. exists (r ++ [m]). cbn. by rewrite P, app_assoc.
  - destruct (at_conn_nth _ _ _ _ H) as (c1 & c' & E1 & G & _ & X). rewrite X.
    destruct (Nat.eqb_spec i j) as [<-|Hj].
    2: { exists c. split; [done|]. split; [|done]. split; [done|]. split; [done|]. by exists r. }
    rewrite E in E1. injection E1 as <-. unfold conn_write in G.
    destruct c as [[] ls q out]; cbn [cn_open cn_listed cn_queue cn_out] in *; [|done]. destruct q as [|m q]; [done|].
    injection G as <-. eexists. split; [reflexivity|]. split; [|done]. destruct (O eq_refl) as [O1 O2].
    inversion Q as [|? ? Q1 Q2]; subst ls. cbn [keeps_up].
    assert (PM : payload (out ++ [m]) = payload out ++ [m]).
    { rewrite payload_app. f_equal. unfold payload. cbn. by rewrite Q1. }
    split; [done|]. cbn [cn_open cn_listed cn_queue cn_out]. rewrite PM.
    split; [intros _; split; [done|]; by rewrite <- app_assoc|]. exists q. by rewrite <- app_assoc.
  - destruct (at_conn_nth _ _ _ _ H) as (c1 & c' & E1 & G & _ & X). rewrite X.
    destruct (Nat.eqb_spec i j) as [<-|Hj].
    2: { exists c. split; [done|]. split; [|done]. split; [done|]. split; [done|]. by exists r. }
    rewrite E in E1. injection E1 as <-. unfold conn_ping in G.
    destruct c as [[] ls q out]; cbn [cn_open cn_listed cn_queue cn_out] in *; [|done].
    injection G as <-. eexists. split; [reflexivity|]. split; [|done]. split; [done|].
    cbn [cn_open cn_listed cn_queue cn_out]. rewrite payload_app, payload_none, app_nil_r. split; [done|]. by exists r.
  - destruct (at_conn_nth _ _ _ _ H) as (c1 & c' & E1 & G & _ & X). rewrite X.
    destruct (Nat.eqb_spec i j) as [<-|Hj].
    2: { exists c. split; [done|]. split; [|done]. split; [done|]. split; [done|]. by exists r. }
    rewrite E in E1. injection E1 as <-. unfold conn_fail in G.
    destruct c as [[] ls q out]; cbn [cn_open cn_listed cn_queue cn_out] in *; [|done].
    injection G as <-. eexists. split; [reflexivity|]. split; [|done]. split; [by constructor|].
    cbn [cn_open cn_listed cn_queue cn_out]. split; [done|]. by exists r.
Qed.

Lemma pushes_cons ev evs : pushes (ev :: evs) = pushes [ev] ++ pushes evs.
Proof. by destruct ev. Qed.

Lemma osteps_conn evs : forall cs cs' i c l, osteps evs cs = Some cs' -> nth_error cs i = Some c -> keeps_up c l ->
  Forall (fun m => is_ping m = false) (pushes evs) ->
  exists c', nth_error cs' i = Some c' /\ keeps_up c' (l ++ pushes evs) /\ (~ In (OFail i) evs -> cn_open c' = cn_open c).
Proof.
  induction evs as [|ev evs IH]; intros cs cs' i c l H E K N; cbn [osteps] in H.
  - injection H as <-. exists c. cbn. by rewrite app_nil_r.
  - destruct (ostep ev cs) as [cs1|] eqn:S; [|done].
    rewrite pushes_cons in N |- *. apply List.Forall_app in N. destruct N as [N1 N2].
    destruct (ostep_conn ev cs cs1 i c l S E K N1) as (c1 & E1 & K1 & O1).
    destruct (IH cs1 cs' i c1 _ H E1 K1 N2) as (c2 & E2 & K2 & O2).
    exists c2. split; [done|]. rewrite app_assoc. split; [done|]. intros F. rewrite O2, O1; [done| |].
    + intros ->. apply F. by left.
    + intros I. apply F. by right.
Qed.

Lemma ostep_length ev cs cs' : ostep ev cs = Some cs' ->
  length cs' = (length cs + match ev with OJoin => 1 | _ => 0 end)%nat.
Proof.
  destruct ev as [|m|j|j|j]; cbn [ostep]; intros H.
  - injection H as <-. by rewrite app_length.
  - injection H as <-. rewrite map_length. lia.
  - destruct (at_conn_nth _ _ _ _ H) as (? & ? & _ & _ & L & _). lia.
  - destruct (at_conn_nth _ _ _ _ H) as (? & ? & _ & _ & L & _). lia.
  - destruct (at_conn_nth _ _ _ _ H) as (? & ? & _ & _ & L & _). lia.
Qed.

Lemma osteps_new evs : forall cs cs' i c, osteps evs cs = Some cs' -> (length cs <= i)%nat -> nth_error cs' i = Some c ->
  Forall (fun m => is_ping m = false) (pushes evs) ->
  keeps_up c (since (i - length cs) evs) /\ (~ In (OFail i) evs -> cn_open c = true).
Proof.
  induction evs as [|ev evs IH]; intros cs cs' i c H L E N; cbn [osteps] in H.
  - injection H as <-. assert (nth_error cs i = None) by (by apply nth_error_None). congruence.
  - destruct (ostep ev cs) as [cs1|] eqn:S; [|done]. pose proof (ostep_length _ _ _ S) as LL.
    rewrite pushes_cons in N. apply List.Forall_app in N. destruct N as [N1 N2].
    assert (NF : ~ In (OFail i) (ev :: evs) -> ~ In (OFail i) evs) by (intros F I; apply F; by right).
    destruct ev as [|m|j|j|j]; cbn [since].
    + destruct (i - length cs)%nat as [|k] eqn:K.
      * assert (i = length cs) as -> by lia. cbn [ostep] in S. injection S as <-.
        destruct (osteps_conn evs (cs ++ [conn_new]) cs' (length cs) conn_new [] H) as (c' & E' & K' & O'); try done.
        { rewrite nth_error_app2, Nat.sub_diag by lia. done. }
        { split; [by constructor|]. split; [done|]. by exists []. }
        rewrite E in E'. injection E' as <-. split; [done|]. intros F. rewrite O'; [done|]. by apply NF.
      * destruct (IH cs1 cs' i c H) as [A B]; try done; [lia|].
        replace (i - length cs1)%nat with k in A by lia. split; [done|]. intros F. by apply B, NF.
    + destruct (IH cs1 cs' i c H) as [A B]; try done; [lia|].
      replace (i - length cs1)%nat with (i - length cs)%nat in A by lia. split; [done|]. intros F. by apply B, NF.
    + destruct (IH cs1 cs' i c H) as [A B]; try done; [lia|].
      replace (i - length cs1)%nat with (i - length cs)%nat in A by lia. split; [done|]. intros F. by apply B, NF.
    + destruct (IH cs1 cs' i c H) as [A B]; try done; [lia|].
      replace (i - length cs1)%nat with (i - length cs)%nat in A by lia. split; [done|]. intros F. by apply B, NF.
    + destruct (IH cs1 cs' i c H) as [A B]; try done; [lia|].
      replace (i - length cs1)%nat with (i - length cs)%nat in A by lia. split; [done|]. intros F. by apply B, NF.
Qed.
