(** Lemmas about the messages between servers and driver. *)
From Verif Require Export SpecPdWire FrameFacts BincodeFacts PdFacts.

Lemma take_bytes_app s rest : take_bytes (length s) (s ++ rest) = DOk s rest.
Proof. induction s as [|b s IH]; [done|]. cbn [length take_bytes app]. unfold dbind. cbn [get_byte]. by rewrite IH. Qed.
Lemma codec_be n : codec (fun x => x < 256 ^ N.of_nat n)%N (put_be n) (get_be n).
Proof.
  intros x rest H. unfold get_be, put_be, dbind.
  assert (L : length (rev (put_le n x)) = n) by (by rewrite rev_length, put_le_length).
  rewrite <- L at 1. rewrite take_bytes_app, rev_involutive. rewrite <- (app_nil_r (put_le n x)), get_le_put by done. done.
Qed.

Lemma addr_put a rest : get_addr (put_addr a ++ rest) = DOk (strip a) rest.
Proof.
  unfold put_addr, strip. destruct (N.ltb_spec a (2 ^ 48)) as [L|L].
  - unfold get_addr, dbind. rewrite <- !app_assoc, codec_u32 by lia. cbv beta iota delta [N.eqb Pos.eqb].
    rewrite codec_be by (apply N.div_lt_upper_bound; [done|]; cbn; lia).
    rewrite codec_u16 by (apply N.mod_lt; done). unfold dret. f_equal. pose proof (N.div_mod a (2 ^ 16)). lia.
  - set (m := (a - 2 ^ 48)%N). unfold get_addr, dbind. rewrite <- !app_assoc, codec_u32 by lia.
    change (1 =? 0)%N with false. change (1 =? 1)%N with true. cbv beta iota.
    rewrite codec_be by (apply N.mod_lt; done).
    rewrite codec_u16 by (apply N.mod_lt; done). unfold dret. f_equal.
    change (2 ^ 144)%N with (2 ^ 16 * 2 ^ 128)%N. rewrite N.mod_mul_r by done. lia.
Qed.
Lemma strip_wire a : wire_addr a -> strip a = a.
Proof.
  unfold wire_addr, strip. intros H. destruct (N.ltb_spec a (2 ^ 48)); [done|]. rewrite N.mod_small by lia. lia.
Qed.
Lemma strip_fits a : wire_addr (strip a).
Proof.
  unfold wire_addr, strip. destruct (N.ltb_spec a (2 ^ 48)); [lia|]. pose proof (N.mod_lt (a - 2 ^ 48) (2 ^ 144)). lia.
Qed.

Lemma codec_role : codec (fun _ => True) put_role get_role.
Proof. intros [|] rest _; unfold get_role, dbind, put_role; by rewrite codec_u32. Qed.
Lemma codec_leader : codec leader_fits put_leader get_leader.
Proof.
  intros [i s f] rest (A & B & C). cbn [li_id li_server li_forward] in *. unfold put_leader, get_leader, dbind. cbn [li_id li_server li_forward].
  rewrite <- !app_assoc, codec_u64 by done. by rewrite !addr_put, !strip_wire.
Qed.
Lemma codec_status : codec status_fits put_status get_status.
Proof.
  intros [i g r l] rest (A & B & C). cbn [st_server st_group st_role st_leader] in *. unfold put_status, get_status, dbind.
  cbn [st_server st_group st_role st_leader]. rewrite <- !app_assoc, !codec_u64, codec_role by done.
  rewrite (codec_option leader_fits) by (try apply codec_leader; destruct l; cbn; auto). done.
Qed.
Lemma init_put g s f rest : (g < 2 ^ 64)%N -> get_init (put_init (g, s, f) ++ rest) = DOk (g, strip s, strip f) rest.
Proof.
  intros A. unfold put_init, get_init, dbind. rewrite <- !app_assoc, codec_u64 by done. by rewrite !addr_put.
Qed.

Lemma deserialize_codec {A} (P : A -> Prop) p g x : codec P p g -> P x -> deserialize g (p x) = OOk x.
Proof. intros C H. unfold deserialize. rewrite <- (app_nil_r (p x)). by rewrite C. Qed.

Lemma put_be_length n x : length (put_be n x) = n.
Proof. unfold put_be. by rewrite rev_length, put_le_length. Qed.
Lemma addr_length a : length (put_addr a) <= 22.
Proof. unfold put_addr. destruct (a <? 2 ^ 48)%N; rewrite !app_length, put_be_length; unfold put_u32, put_u16; rewrite !put_le_length; lia. Qed.
Lemma status_length st : length (put_status st) <= 100.
Proof.
  unfold put_status. rewrite !app_length. unfold put_u64, put_role, put_u32. rewrite !put_le_length.
  destruct (st_leader st) as [l|]; cbn [put_option]; [|cbn; lia].
  rewrite app_length. unfold put_leader. rewrite !app_length. unfold put_u64, put_u8. rewrite !put_le_length.
  pose proof (addr_length (li_server l)). pose proof (addr_length (li_forward l)). lia.
Qed.
Lemma init_length g s f : length (put_init (g, s, f)) <= 100.
Proof.
  unfold put_init. rewrite !app_length. unfold put_u64. rewrite put_le_length. pose proof (addr_length s). pose proof (addr_length f). lia.
Qed.
Lemma beat_wf st : wf_frame (beat_frame st).
Proof.
  unfold beat_frame. cbn [wf_frame]. split; [cbn; lia|]. split; [cbn; lia|]. split; [|done]. pose proof (status_length st). lia.
Qed.
Lemma init_wf g s f : wf_frame (init_frame g s f).
Proof.
  unfold init_frame. cbn [wf_frame]. split; [cbn; lia|]. split; [cbn; lia|]. split; [|done]. pose proof (init_length g s f). lia.
Qed.

Lemma serve_beat txt now st p : status_fits st ->
  pd_serve txt now (beat_frame st) p =
  (fst (server_heartbeat now st p), Some (FBulk (put_option put_status (snd (server_heartbeat now st p))))).
Proof.
  intros F. unfold pd_serve, beat_frame, next. cbn [as_str].
  replace (utf8_valid name_beat) with true by (vm_compute; reflexivity).
  unfold pd_apply. rewrite bool_decide_false by (vm_compute; discriminate). rewrite bool_decide_true by (vm_compute; reflexivity).
  unfold next. cbn [as_bytes]. rewrite (deserialize_codec _ _ _ _ codec_status F).
  by destruct (server_heartbeat now st p) as [p' o].
Qed.
Lemma serve_init txt now g s f p : (g < 2 ^ 64)%N ->
  pd_serve txt now (init_frame g s f) p =
  (fst (server_init now g (strip s) (strip f) p),
   Some (match snd (server_init now g (strip s) (strip f) p) with
         | Some st => FBulk (put_status st)
         | None => FError (txt (init_frame g s f))
         end)).
Proof.
  intros F. unfold pd_serve. unfold init_frame at 1. unfold next. cbn [as_str].
  replace (utf8_valid name_init) with true by (vm_compute; reflexivity).
  unfold pd_apply. rewrite bool_decide_true by (vm_compute; reflexivity).
  unfold next. cbn [as_bytes]. unfold deserialize. rewrite <- (app_nil_r (put_init _)), init_put by done.
  destruct (server_init now g (strip s) (strip f) p) as [p' [st|]]; done.
Qed.

(** What the driver answers can be sent. *)
Lemma join_fits now gid s f p st : pd_fits p -> wire_addr s -> wire_addr f -> snd (server_init now gid s f p) = Some st -> status_fits st.
Proof.
  intros F S1 S2. unfold server_init. destruct (find _ _) as [g|] eqn:E; [|done]. cbn [snd]. intros H. injection H as <-.
  apply find_id_some in E as [I E]. destruct (F g I) as (A & B & C & D).
  unfold group_join, status_of, status_fits. cbn. split; [lia|]. split; [lia|]. intros l.
  destruct (existsb is_leader (gr_servers g)); [apply C|]. intros H. injection H as <-. unfold leader_fits. cbn. split; [lia|]. done.
Qed.
Lemma beat_fits now st p r : pd_fits p -> snd (server_heartbeat now st p) = Some r -> status_fits r.
Proof.
  intros F. unfold server_heartbeat, heartbeat_server. destruct (find _ (pd_groups p)) as [g|] eqn:E; [|done].
  destruct (find _ (gr_servers g)) as [s|] eqn:E'; [|done]. cbn [snd]. destruct (bool_decide _); [done|]. intros H. injection H as <-.
  apply find_id_some in E as [I E]. apply find_id_some in E' as [I' E']. destruct (F g I) as (A & B & C & D). specialize (D s I').
  unfold status_of, status_fits. cbn. split; [lia|]. split; [lia|]. exact C.
Qed.

(** Reading what was written, whatever the segmentation. *)
Lemma read_written f chunks more : wf_frame f -> Forall (fun c => c <> []) chunks -> concat chunks = write f ++ more ->
  exists buf cs, read_frame chunks [] = inl (f, buf, cs) /\ buf ++ concat cs = more /\ Forall (fun c => c <> []) cs.
Proof.
  intros W C E. pose proof (read_frame_spec chunks [] C) as R. cbn [app] in R. rewrite E, parse_write in R by done. exact R.
Qed.

(** * The driver's invariant holds whatever it is sent *)
Lemma get_le_lt n s x r : get_le n s = DOk x r -> (x < 256 ^ N.of_nat n)%N.
Proof.
  revert s x r; induction n as [|n IH]; intros s x r H; cbn [get_le] in H.
  - injection H as <- _. cbn. lia.
  - destruct s as [|b s]; [done|]. destruct (get_le n s) as [y r'| |] eqn:E; [|done|done]. injection H as <- _.
    specialize (IH _ _ _ E). rewrite Nat2N.inj_succ, N.pow_succ_r'. pose proof (to_N_lt b) as B. set (q := (256 ^ N.of_nat n)%N) in *. clearbody q.
    change (to_N b + 256 * y < 256 * q)%N. lia.
Qed.
Lemma get_addr_wire s a r : get_addr s = DOk a r -> wire_addr a.
Proof.
  unfold get_addr, dbind, dret, dfail, wire_addr. destruct (get_u32 s) as [t s1| |]; try done.
  assert (B : forall n s x r, get_be n s = DOk x r -> (x < 256 ^ N.of_nat n)%N).
  { intros n s0 x r0. unfold get_be, dbind, dret, dfail. destruct (take_bytes n s0); try done. destruct (get_le n (rev a0)) eqn:E; try done.
    intros H. injection H as <- _. by eapply get_le_lt. }
  destruct (t =? 0)%N; [|destruct (t =? 1)%N; [|done]].
  - destruct (get_be 4 s1) as [ip s2| |] eqn:E; try done. destruct (get_u16 s2) as [po s3| |] eqn:E'; try done.
    intros H. injection H as <- _. apply B in E. apply get_le_lt in E'. cbn in E, E'. lia.
  - destruct (get_be 16 s1) as [ip s2| |] eqn:E; try done. destruct (get_u16 s2) as [po s3| |] eqn:E'; try done.
    intros H. injection H as <- _. apply B in E. apply get_le_lt in E'.
    change (256 ^ N.of_nat 16)%N with (2 ^ 128)%N in E. change (256 ^ N.of_nat 2)%N with (2 ^ 16)%N in E'.
    change (2 ^ 144)%N with (2 ^ 128 * 2 ^ 16)%N. nia.
Qed.
Lemma get_init_wire b g s a : deserialize get_init b = OOk (g, s, a) -> wire_addr s /\ wire_addr a.
Proof.
  unfold deserialize, get_init, dbind, dret. destruct (get_u64 b) as [g' b1| |]; try done.
  destruct (get_addr b1) as [s' b2| |] eqn:E1; try done. destruct (get_addr b2) as [a' b3| |] eqn:E2; try done.
  intros H. injection H as <- <- <-. split; by eapply get_addr_wire.
Qed.

Lemma serve_changes txt now f p :
  let p' := fst (pd_serve txt now f p) in
  p' = p \/ p' = create_group p \/
  (exists g s a, wire_addr s /\ wire_addr a /\ p' = fst (server_init now g s a p)) \/
  (exists st, p' = fst (server_heartbeat now st p)).
Proof.
  unfold pd_serve. destruct (match f with FArray l => _ | FPing => _ | _ => None end) as [c|]; [|by left].
  destruct (next as_str c) as [n c1| |]; [|by left|by left].
  unfold pd_apply. destruct (bool_decide _); [|destruct (bool_decide _); [|destruct (bool_decide _)]].
  - destruct (next as_bytes c1) as [b ?| |]; [|by left|by left]. destruct (deserialize get_init b) as [[[g s] a]|?|] eqn:D; [|by left|by left].
    destruct (get_init_wire _ _ _ _ D).
    destruct (server_init now g s a p) as [p' o] eqn:E. cbn [fst]. right. right. left. exists g, s, a. by rewrite E.
  - destruct (next as_bytes c1) as [b ?| |]; [|by left|by left]. destruct (deserialize get_status b) as [st|?|]; [|by left|by left].
    destruct (server_heartbeat now st p) as [p' o] eqn:E. cbn [fst]. right. right. right. exists st. by rewrite E.
  - right. by left.
  - by left.
Qed.
Lemma serve_ok txt now f p : pd_ok p -> pd_ok (fst (pd_serve txt now f p)).
Proof.
  intros H. destruct (serve_changes txt now f p) as [->|[->|[(g & s & a & _ & _ & ->)|(st & ->)]]].
  - done.
  - by apply create_group_ok.
  - by apply server_init_ok.
  - rewrite server_heartbeat_fst. by apply heartbeat_server_ok.
Qed.
Lemma dsteps_ok txt evs p : pd_ok p -> pd_ok (fold_left (dstep txt) evs p).
Proof.
  revert p; induction evs as [|ev evs IH]; intros p H; [done|]. cbn [fold_left]. apply IH. destruct ev; [by apply serve_ok|by apply survival_check_ok].
Qed.

(** The counters grow by at most one per event, and all addresses come off the wire. *)
Definition group_small (n : N) (g : group) : Prop :=
  (gr_latest g <= n)%N /\ (forall l, gr_leader g = Some l -> (li_id l <= gr_latest g)%N /\ wire_addr (li_server l) /\ wire_addr (li_forward l)) /\
  forall s, In s (gr_servers g) -> (sv_id s <= gr_latest g)%N /\ wire_addr (sv_server s) /\ wire_addr (sv_forward s).
Definition pd_small (n : N) (p : pd) : Prop :=
  (pd_latest p <= n)%N /\ forall g, In g (pd_groups p) -> (gr_id g <= n)%N /\ group_small n g.
Lemma group_small_le n m g : (n <= m)%N -> group_small n g -> group_small m g.
Proof. intros L (A & B & C). split; [lia|]. done. Qed.
Lemma pd_small_le n m p : (n <= m)%N -> pd_small n p -> pd_small m p.
Proof.
  intros L (A & B). split; [lia|]. intros g I. destruct (B g I) as [C D]. split; [lia|]. by eapply group_small_le.
Qed.
Lemma join_small n now s a g : wire_addr s -> wire_addr a -> group_small n g -> group_small (n + 1) (fst (group_join now s a g)).
Proof.
  intros W1 W2 (A & B & C). unfold group_join. cbn [fst]. split; [cbn; lia|]. split; cbn [gr_leader gr_latest gr_servers].
  - intros l. destruct (existsb _ _); cbn.
    + intros H. destruct (B l H) as (B1 & B2 & B3). split; [lia|done].
    + intros H. injection H as <-. cbn. split; [lia|done].
  - intros x I. apply in_app_or in I as [I|[<-|[]]]; cbn; [|split; [lia|done]]. destruct (C x I) as (C1 & C2). split; [lia|done].
Qed.
Lemma elect_small n now g : group_small n g -> group_small n (elect now g).
Proof.
  intros (A & B & C). unfold elect. pose proof (pick_spec now (gr_servers g)) as P.
  destruct (pick now 0 None (gr_servers g)) as [[i s]|]; [|done]. destruct P as (P & _). apply nth_error_In in P.
  split; [done|]. cbn [gr_leader gr_latest gr_servers]. split.
  - intros l H. injection H as <-. cbn. by apply C.
  - intros x I. apply in_update_at in I as [I|(y & I & ->)]; [by apply C|]. apply nth_error_In in I. cbn. by apply C.
Qed.
Lemma check_small n now g : group_small n g -> group_small n (check_group now g).
Proof.
  intros S. unfold check_group. destruct (find is_leader _); [|by apply elect_small].
  destruct (_ <? now)%N; [|done]. apply elect_small. destruct S as (A & B & C). split; [done|]. split; [done|].
  cbn [with_servers gr_servers]. intros x I. apply in_update_first in I as [I|(y & _ & I & ->)]; cbn; by apply C.
Qed.
Lemma check_id now g : gr_id (check_group now g) = gr_id g.
Proof.
  unfold check_group, elect, with_servers. destruct (find is_leader _); [destruct (_ <? now)%N; [|done]|]; cbn [gr_servers];
    destruct (pick _ _ _ _) as [[? ?]|]; done.
Qed.
Lemma dstep_small txt n p ev : pd_small n p -> pd_small (n + 1) (dstep txt p ev).
Proof.
  intros S. assert (S' : pd_small (n + 1) p) by (eapply pd_small_le; [|done]; lia). destruct S as [S1 S2]. destruct ev as [now f|now]; cbn [dstep].
  - destruct (serve_changes txt now f p) as [->|[->|[(g & s & a & W1 & W2 & ->)|(st & ->)]]].
    + done.
    + split; [cbn; lia|]. intros g I. cbn in I. apply in_app_or in I as [I|[<-|[]]]; [by apply S'|]. cbn. split; [lia|].
      split; [cbn; lia|]. split; [done|]. intros s [].
    + unfold server_init. destruct (find _ _) as [g'|] eqn:E; [|done]. cbn [fst]. split; [cbn; lia|]. cbn [pd_groups]. intros x I.
      apply in_update_first in I as [I|(y & _ & I & ->)]; [by apply S'|]. destruct (S2 y I) as [A B].
      split; [rewrite group_join_id; lia|by apply join_small].
    + rewrite server_heartbeat_fst. unfold heartbeat_server. destruct (find _ (pd_groups p)) as [g'|]; [|done].
      destruct (find _ (gr_servers g')); [|done].
      cbn [fst]. split; [cbn; lia|]. cbn [pd_groups]. intros x I.
      apply in_update_first in I as [I|(y & _ & I & ->)]; [by apply S'|]. destruct (S' ) as [_ S3]. destruct (S3 y I) as [A (B & C & D)].
      split; [done|]. split; [done|]. split; [done|]. cbn [with_servers gr_servers gr_latest]. intros z Z.
      apply in_update_first in Z as [Z|(z' & _ & Z & ->)]; cbn; by apply D.
  - split; [by destruct S'|]. cbn [survival_check pd_groups]. intros g I. apply in_map_iff in I as (g' & <- & I).
    destruct S' as [_ S3]. destruct (S3 g' I) as [A B]. rewrite check_id. split; [done|by apply check_small].
Qed.
Lemma dsteps_small txt evs : forall n p, pd_small n p -> pd_small (n + N.of_nat (length evs)) (fold_left (dstep txt) evs p).
Proof.
  induction evs as [|ev evs IH]; intros n p H; cbn [fold_left length]; [by rewrite N.add_0_r|].
  rewrite Nat2N.inj_succ. replace (n + N.succ (N.of_nat (length evs)))%N with ((n + 1) + N.of_nat (length evs))%N by lia.
  apply IH. by apply dstep_small.
Qed.
Lemma small_fits n p : pd_small n p -> (n + 1 < 2 ^ 64)%N -> pd_fits p.
Proof.
  intros (A & B) L g I. destruct (B g I) as (C & D & E & F). split; [lia|]. split; [lia|]. split.
  - intros l H. destruct (E l H) as (E1 & E2 & E3). split; [lia|done].
  - intros s J. by apply F.
Qed.
