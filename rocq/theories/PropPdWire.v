(** The messages between servers and driver, and the driver's restart: C77 to C79. *)
From Verif Require Import BytesFacts PdWireFacts.
Local Open Scope nat_scope.

(** ** C77: driver and servers understand each other *)
(** A heartbeat arrives at the driver as it was sent, and its answer at the server, however the bytes are cut
    into segments and whatever follows them. *)
Theorem C77_heartbeat (txt : frame -> bytes) (now : N) (st : status) (p : pd) (chunks : list bytes) (more : bytes) :
  status_fits st -> pd_fits p -> Forall (fun c => c <> []) chunks -> concat chunks = write (beat_frame st) ++ more ->
  exists buf cs reply,
    read_frame chunks [] = inl (beat_frame st, buf, cs) /\ buf ++ concat cs = more /\
    pd_serve txt now (beat_frame st) p = (fst (server_heartbeat now st p), Some reply) /\
    forall achunks amore, Forall (fun c => c <> []) achunks -> concat achunks = write reply ++ amore ->
      exists abuf acs, read_answer (get_option get_status) achunks [] = Some (snd (server_heartbeat now st p), abuf, acs) /\
        abuf ++ concat acs = amore.
Proof.
  intros F P C E. destruct (read_written _ _ _ (beat_wf st) C E) as (buf & cs & R & M & _).
  eexists buf, cs, _. split; [done|]. split; [done|]. split; [by apply serve_beat|].
  set (o := snd (server_heartbeat now st p)).
  assert (O : match o with Some x => status_fits x | None => True end).
  { destruct o as [x|] eqn:Eo; [|done]. by apply (beat_fits now st p). }
  clearbody o. intros achunks amore AC AE.
  assert (W : wf_frame (FBulk (put_option put_status o))).
  { cbn [wf_frame]. destruct o as [x|]; cbn [put_option]; [|cbn; lia]. rewrite app_length. pose proof (status_length x).
    unfold put_u8. rewrite put_le_length. lia. }
  destruct (read_written _ _ _ W AC AE) as (ab & acs & R' & M' & _). exists ab, acs. split; [|done].
  unfold read_answer. rewrite R'. rewrite (deserialize_codec _ _ _ o (codec_option status_fits _ _ codec_status)); [done|].
  by destruct o.
Qed.
Print Assumptions C77_heartbeat.

(** A request to join likewise, but for the flow label and the scope id of IPv6 addresses; a server that asks
    for a group that does not exist gets an error, and exits. *)
Theorem C77_join_partial (txt : frame -> bytes) (now g sa fa : N) (p : pd) (chunks : list bytes) (more : bytes) :
  (g < 2 ^ 64)%N -> wire_addr sa -> wire_addr fa -> pd_fits p -> txt (init_frame g sa fa) <> [] -> one_line (txt (init_frame g sa fa)) ->
  Forall (fun c => c <> []) chunks -> concat chunks = write (init_frame g sa fa) ++ more ->
  exists buf cs reply,
    read_frame chunks [] = inl (init_frame g sa fa, buf, cs) /\ buf ++ concat cs = more /\
    pd_serve txt now (init_frame g sa fa) p = (fst (server_init now g sa fa p), Some reply) /\
    forall achunks amore, Forall (fun c => c <> []) achunks -> concat achunks = write reply ++ amore ->
      match snd (server_init now g sa fa p) with
      | Some st => exists abuf acs, read_answer get_status achunks [] = Some (st, abuf, acs) /\ abuf ++ concat acs = amore
      | None => read_answer get_status achunks [] = None
      end.
Proof.
  intros G S1 S2 P T1 T2 C E. destruct (read_written _ _ _ (init_wf g sa fa) C E) as (buf & cs & R & M & _).
  eexists buf, cs, _. split; [done|]. split; [done|]. split; [rewrite serve_init, !strip_wire by done; done|].
  intros achunks amore AC AE. destruct (snd (server_init now g sa fa p)) as [x|] eqn:Eo.
  - pose proof (join_fits _ _ _ _ _ _ P S1 S2 Eo) as O.
    assert (W : wf_frame (FBulk (put_status x))) by (cbn [wf_frame]; pose proof (status_length x); lia).
    destruct (read_written _ _ _ W AC AE) as (ab & acs & R' & M' & _). exists ab, acs. split; [|done].
    unfold read_answer. rewrite R'. by rewrite (deserialize_codec _ _ _ _ codec_status O).
  - assert (W : wf_frame (FError (txt (init_frame g sa fa)))) by done.
    destruct (read_written _ _ _ W AC AE) as (ab & acs & R' & M' & _). unfold read_answer. by rewrite R'.
Qed.
Print Assumptions C77_join_partial.

(** A driver that has been sent anything at all, up to 2^64 - 2 frames and checks, is in such a state. *)
Theorem C77_driver_fits (txt : frame -> bytes) (evs : list devent) :
  (N.of_nat (length evs) + 1 < 2 ^ 64)%N -> pd_fits (fold_left (dstep txt) evs pd_empty).
Proof.
  intros L. apply (small_fits (0 + N.of_nat (length evs))); [|lia]. apply dsteps_small. split; [done|]. intros g [].
Qed.
Print Assumptions C77_driver_fits.

(** fe80::1%3, port 6379: the scope id is lost, and with it the address. *)
Definition c77_scoped : N := (2 ^ 48 + (3 * 2 ^ 144 + (0xfe80 * 2 ^ 112 + 1) * 2 ^ 16 + 6379))%N.
Theorem C77_scope_refuted : exists (now g sa fa : N) (p p' : pd) (b : bytes) (st : status) (l : leader_info),
  pd_fits p /\ (forall txt, pd_serve txt now (init_frame g sa fa) p = (p', Some (FBulk b))) /\
  deserialize get_status b = OOk st /\ st_role st = Leader /\ st_leader st = Some l /\ li_server l <> sa.
Proof.
  exists 5%N, 1%N, c77_scoped, 6380%N, (create_group pd_empty).
  eexists _, _, _, _. split; [apply (C77_driver_fits (fun _ => []) [DFrame 0 (FArray [FBulk name_group])]); cbn; lia|].
  split; [intros txt; rewrite serve_init by lia; vm_compute; reflexivity|]. split; [vm_compute; reflexivity|].
  split; [reflexivity|]. split; [reflexivity|]. vm_compute. discriminate.
Qed.
Print Assumptions C77_scope_refuted.

(** A server joins over the wire, byte by byte, sends a heartbeat and is answered. *)
Definition c77_txt : frame -> bytes := fun _ => bs "no such group".
Definition c77_p1 : pd := fold_left (dstep c77_txt) [DFrame 0 (FArray [FBulk name_group]); DFrame 10 (init_frame 1 80 90)] pd_empty.
Definition c77_chunks (f : frame) : list bytes := map (fun b => [b]) (write f).
Example C77_case :
  (N.of_nat 2 + 1 < 2 ^ 64)%N /\ status_fits status_default /\ wire_addr (2 ^ 48 + 2 ^ 100) /\
  pd_groups c77_p1 = [Group 1 1 [Server 1 10 Leader 80 90 10] (Some (LeaderInfo 1 80 90))] /\
  read_frame (c77_chunks (init_frame 1 (2 ^ 48 + 2 ^ 100) 91)) [] = inl (init_frame 1 (2 ^ 48 + 2 ^ 100) 91, [], []) /\
  pd_serve c77_txt 20 (init_frame 1 (2 ^ 48 + 2 ^ 100) 91) c77_p1 =
    (fst (server_init 20 1 (2 ^ 48 + 2 ^ 100) 91 c77_p1), Some (FBulk (put_status (Status 2 1 Follower (Some (LeaderInfo 1 80 90)))))) /\
  read_answer get_status (c77_chunks (FBulk (put_status (Status 2 1 Follower (Some (LeaderInfo 1 80 90)))))) [] =
    Some (Status 2 1 Follower (Some (LeaderInfo 1 80 90)), [], []) /\
  snd (pd_serve c77_txt 20 (init_frame 7 80 91) c77_p1) = Some (FError (bs "no such group")) /\
  read_answer get_status [write (FError (bs "no such group"))] [] = None.
Proof.
  split; [cbn; lia|]. split; [by split; [|split]; [cbn; lia|cbn; lia|]|]. split; [unfold wire_addr; lia|].
  repeat (split; [vm_compute; reflexivity|]). vm_compute. reflexivity.
Qed.

(** ** C78: nothing that is sent to the driver can break it *)
Theorem C78_any_input (txt : frame -> bytes) (evs : list devent) :
  let p := fold_left (dstep txt) evs pd_empty in
  List.NoDup (map gr_id (pd_groups p)) /\
  forall g, In g (pd_groups p) ->
    one_leader g /\ advertised g /\ advertises_member g /\ List.NoDup (map sv_id (gr_servers g)).
Proof.
  intros p. assert (O : pd_ok p) by (apply dsteps_ok, pd_empty_ok). split; [apply (po_ids _ O)|].
  intros g I. by destruct (po_groups _ O g I).
Qed.
Print Assumptions C78_any_input.

(** Only the three messages change anything. *)
Theorem C78_meaningless (txt : frame -> bytes) (now : N) (f : frame) (p : pd) :
  ~ meaningful f -> fst (pd_serve txt now f p) = p.
Proof.
  intros M. unfold pd_serve. destruct f as [| |b|b|b|z| |l|]; try done.
  unfold next. destruct l as [|h l]; [done|]. destruct (as_str h) as [n|] eqn:Eh; [|done].
  assert (H : str h n \/ h = FPing).
  { unfold str. destruct h; cbn in Eh; try done; [by right| |]; (destruct (utf8_valid _); [|done]; injection Eh as <-; auto). }
  destruct H as [H|H]; [|subst h; cbn in Eh; injection Eh as <-; vm_compute (lowercase (bs "PING")); done].
  unfold pd_apply. unfold next.
  assert (Q : forall h2 b, as_bytes h2 = Some b -> str h2 b) by (intros h2 b; unfold str; destruct h2; cbn; try done; intros X; injection X as ->; auto).
  destruct (bool_decide_reflect (lowercase n = name_init)) as [B|B];
    [|destruct (bool_decide_reflect (lowercase n = name_beat)) as [B'|B']; [|destruct (bool_decide_reflect (lowercase n = name_group)) as [B2|B2]]].
  + destruct l as [|h2 l]; [done|]. destruct (as_bytes h2) as [b|] eqn:Eb; [|done]. destruct (deserialize get_init b) as [[[g s] a]|?|] eqn:D; [|done|done].
    destruct M. exists n, h, (h2 :: l). split; [done|]. split; [done|]. right. left. split; [done|]. exists h2, b, l. eauto.
  + destruct l as [|h2 l]; [done|]. destruct (as_bytes h2) as [b|] eqn:Eb; [|done]. destruct (deserialize get_status b) as [x|?|] eqn:D; [|done|done].
    destruct M. exists n, h, (h2 :: l). split; [done|]. split; [done|]. right. right. split; [done|]. exists h2, b, l. eauto.
  + destruct M. exists n, h, l. split; [done|]. split; [done|]. by left.
  + done.
Qed.
Print Assumptions C78_meaningless.

(** Every array is answered, once and in order, whatever it contains, and the connection goes on. *)
Theorem C78_every_array_answered (txt : frame -> bytes) (clock : nat -> N) (oth : nat -> pd -> pd) (chunks : list bytes)
  (fs : list frame) (p : pd) (fuel : nat) :
  Forall (fun c => c <> []) chunks -> Forall wf_frame fs -> Forall is_array fs -> concat chunks = concat (map write fs) ->
  length fs < fuel ->
  exists p' rs, pd_handler fuel txt clock oth chunks [] p = (p', rs, true) /\ answers txt clock oth 0 fs p rs p'.
Proof.
  intros C W A E L.
  assert (G : forall fs fuel clk ot i buf chunks p, (forall j, clk j = clock (i + j)) -> (forall j, ot j = oth (i + j)) ->
    Forall (fun c => c <> []) chunks -> Forall wf_frame fs -> Forall is_array fs -> buf ++ concat chunks = concat (map write fs) -> length fs < fuel ->
    exists p' rs, pd_handler fuel txt clk ot chunks buf p = (p', rs, true) /\ answers txt clock oth i fs p rs p').
  { clear. induction fs as [|f fs IH]; intros fuel clk ot i buf chunks p K O C W A E L; (destruct fuel as [|fuel]; [cbn in L; lia|]); cbn [pd_handler].
    - cbn in E. apply app_eq_nil in E as [-> E].
      pose proof (read_frame_spec chunks [] C) as R. cbn [app] in R. rewrite E in R. cbn in R. rewrite R.
      exists p, []. split; [done|constructor].
    - inversion W as [|? ? W1 W2]; subst. inversion A as [|? ? A1 A2]; subst. destruct A1 as [l ->].
      pose proof (read_frame_spec chunks buf C) as R. rewrite E in R. cbn [map concat] in R. rewrite parse_write in R by done.
      destruct R as (buf' & cs & R & M & C'). rewrite R.
      assert (SV : exists p1 r, pd_serve txt (clk 0) (FArray l) (ot 0 p) = (p1, Some r)).
      { unfold pd_serve. destruct (next as_str l) as [n c| |]; eauto. destruct (pd_apply _ _ _ _) as [p1 o]. eauto. }
      destruct SV as (p1 & r & SV). rewrite SV. cbn in L.
      destruct (IH fuel (fun j => clk (S j)) (fun j => ot (S j)) (S i) buf' cs p1) as (p' & rs & H & H'); [| |done|done|done|done|lia|].
      + intros j. rewrite K. f_equal. lia.
      + intros j. rewrite O. f_equal. lia.
      + rewrite H. exists p', (r :: rs). split; [done|]. econstructor; [|exact H']. rewrite K, O in SV. by rewrite Nat.add_0_r in SV. }
  apply (G fs fuel clock oth 0 [] chunks p); done.
Qed.
Print Assumptions C78_every_array_answered.

(** Nonsense, an unknown command, a heartbeat of a server that does not exist, a record cut short, and a
    record with a role that does not exist. *)
Definition c78_bad : list frame :=
  [FArray []; FArray [FInteger 5]; FArray [FBulk (bs "get"); FBulk (bs "k")]; beat_frame (Status 77 1 Leader None);
   FArray [FBulk name_init; FBulk (firstn 20 (put_init (1, 80, 90)%N))]; FArray [FBulk name_init];
   FArray [FBulk name_beat; FBulk (put_u64 1 ++ put_u64 1 ++ put_u32 2 ++ [x00])]].
Example C78_case :
  pd_handler 8 c77_txt (fun i => 20%N) (fun _ q => q) (c77_chunks (FArray []) ++ [concat (map write (tl c78_bad))]) [] c77_p1 =
    (c77_p1,
     [FError (bs "no such group"); FError (bs "no such group"); frame_ok; FBulk [x00];
      FError (bs "no such group"); FError (bs "no such group"); FError (bs "no such group")], true) /\
  Forall is_array c78_bad /\ ~ meaningful (FArray [FBulk name_init]).
Proof.
  split; [vm_compute; reflexivity|]. split.
  - unfold c78_bad. repeat (constructor; [by eexists|]). constructor.
  - intros (n & h & rest & E & S & X). injection E as <- <-. destruct S as [S|S]; [injection S as <-|done].
    destruct X as [X|[(_ & h2 & b & r2 & x & X & _)|(X & _)]]; [vm_compute in X; discriminate X|done|vm_compute in X; discriminate X].
Qed.

(** ** C79: the driver's restart *)
(** The claim that the driver takes up its servers again after a restart is false of every execution: as long
    as no server is started, no group has a server or a leader, and no heartbeat arrives. *)
Theorem C79_all_forgotten_refuted (c c' : cluster) (evs : list cevent) :
  no_joins evs -> csteps evs (restart c) = Some c' ->
  cl_nodes c' = cl_nodes (restart c) /\
  forall g, In g (pd_groups (cl_pd c')) -> gr_servers g = [] /\ gr_leader g = None.
Proof.
  intros J. assert (G : forall d, Forall (fun n => nd_beats n = false) (cl_nodes d) ->
    (forall g, In g (pd_groups (cl_pd d)) -> gr_servers g = [] /\ gr_leader g = None) -> csteps evs d = Some c' ->
    cl_nodes c' = cl_nodes d /\ forall g, In g (pd_groups (cl_pd c')) -> gr_servers g = [] /\ gr_leader g = None).
  { induction J as [|ev evs Jv Js IH]; intros d B E H; cbn [csteps] in H; [by injection H as <-|].
    destruct (cstep ev d) as [d'|] eqn:S; [|done].
    assert (X : cl_nodes d' = cl_nodes d /\ forall g, In g (pd_groups (cl_pd d')) -> gr_servers g = [] /\ gr_leader g = None).
    { destruct d as [p l]. cbn [cl_nodes cl_pd] in *. rewrite List.Forall_forall in B.
      destruct ev; cbn [cstep] in S; try done.
      - injection S as <-. split; [done|]. cbn. intros g I. apply in_app_or in I as [I|[<-|[]]]; [by apply E|done].
      - destruct (nth_error l i) as [n|] eqn:N; [|done]. unfold node_beat in S. by rewrite (B n (nth_error_In _ _ N)) in S.
      - unfold at_node in S. destruct (nth_error l i) as [n|] eqn:N; [|done]. unfold node_apply in S. by rewrite (B n (nth_error_In _ _ N)) in S.
      - unfold at_node in S. destruct (nth_error l i) as [n|] eqn:N; [|done]. unfold node_lost in S. by rewrite (B n (nth_error_In _ _ N)) in S.
      - injection S as <-. split; [done|]. cbn. intros g I. apply in_map_iff in I as (g' & <- & I). destruct (E g' I) as [E1 E2].
        unfold check_group. rewrite E1. cbn [find]. unfold elect. rewrite E1. done. }
    destruct X as [X1 X2]. destruct (IH d') as [Y1 Y2]; [by rewrite X1|done|done|]. by rewrite Y1. }
  apply (G (restart c)).
  - unfold restart. cbn [cl_nodes]. apply List.Forall_forall. intros n I. by apply in_map_iff in I as (m & <- & _).
  - intros g [].
Qed.
Print Assumptions C79_all_forgotten_refuted.

(** What is true: the servers go on with the roles and the replication they had, also when others join;
    missing from the claim is everything else. *)
Theorem C79_roles_kept_partial (c c' : cluster) (evs : list cevent) (i : nat) (n : node) :
  csteps evs (restart c) = Some c' -> nth_error (cl_nodes c) i = Some n ->
  exists m, nth_error (cl_nodes c') i = Some m /\ nd_latest m = nd_latest n /\ nd_target m = nd_target n /\ nd_rx m = nd_rx n /\ nd_beats m = false.
Proof.
  intros H N. set (m := Node (nd_given n) (nd_latest n) (nd_target n) (nd_rx n) None false).
  assert (G : forall d, nth_error (cl_nodes d) i = Some m -> csteps evs d = Some c' -> nth_error (cl_nodes c') i = Some m).
  { clear H N. induction evs as [|ev evs IH]; intros d N H; cbn [csteps] in H; [by injection H as <-|].
    destruct (cstep ev d) as [d'|] eqn:S; [|done]. apply (IH d'); [|done]. clear H IH. destruct d as [p l]. cbn [cl_nodes] in *.
    assert (U : forall j n', j <> i -> nth_error (update_at j (fun _ => n') l) i = Some m).
    { intros j n' Q. rewrite <- N. clear -Q. revert i j Q. induction l as [|x l IH]; intros i j Q; [by destruct j|].
      destruct j, i; cbn; [done|done|done|]. apply IH. lia. }
    destruct ev as [|now gid sa fa snap cmd|now j|j snap cmd|j|now]; cbn [cstep] in S.
    - by injection S as <-.
    - destruct (server_init now gid sa fa p) as [p' [st|]]; injection S as <-; cbn; [|done].
      rewrite nth_error_app1; [done|]. apply nth_error_Some. congruence.
    - destruct (nth_error l j) as [x|] eqn:Nj; [|done]. destruct (Nat.eq_dec j i) as [Q|Q].
      + subst j. rewrite N in Nj. injection Nj as <-. done.
      + destruct (node_beat now p x) as [[p' x']|]; [|done]. injection S as <-. by apply U.
    - unfold at_node in S. destruct (nth_error l j) as [x|] eqn:Nj; [|done]. destruct (Nat.eq_dec j i) as [Q|Q].
      + subst j. rewrite N in Nj. injection Nj as <-. done.
      + destruct (node_apply snap cmd x) as [x'|]; [|done]. injection S as <-. by apply U.
    - unfold at_node in S. destruct (nth_error l j) as [x|] eqn:Nj; [|done]. destruct (Nat.eq_dec j i) as [Q|Q].
      + subst j. rewrite N in Nj. injection Nj as <-. done.
      + destruct (node_lost x) as [x'|]; [|done]. injection S as <-. by apply U.
    - by injection S as <-. }
  exists m. split; [|done]. apply (G (restart c)); [|done]. unfold restart. cbn [cl_nodes]. by rewrite nth_error_map, N.
Qed.
Print Assumptions C79_roles_kept_partial.

(** And the first server that is started afterwards gets the ids of the first one before, and both lead. *)
Definition c79_before : list cevent := [SCreate; SJoin 1000 1 80 90 true true; SJoin 1500 1 81 91 true true; SBeat 2000 1; SApply 1 true true].
Definition c79_after : list cevent := [SCreate; SJoin 9000 1 82 92 true true; SBeat 9500 2; SApply 2 true true; SCheck 9600].
Theorem C79_two_leaders_refuted : exists c c' n0 n1 n2,
  csteps c79_before cl_empty = Some c /\ csteps c79_after (restart c) = Some c' /\
  cl_nodes c' = [n0; n1; n2] /\ believes n0 /\ believes n2 /\
  (st_group (nd_given n0), st_server (nd_given n0)) = (st_group (nd_given n2), st_server (nd_given n2)) /\
  st_role (nd_latest n1) = Follower /\ nd_target n1 = Some (LeaderInfo 1 80 90) /\
  map gr_leader (pd_groups (cl_pd c')) = [Some (LeaderInfo 1 82 92)].
Proof.
  eexists _, _, _, _, _. split; [vm_compute; reflexivity|]. split; [vm_compute; reflexivity|]. split; [reflexivity|].
  repeat (split; [reflexivity|]). reflexivity.
Qed.
Print Assumptions C79_two_leaders_refuted.
Example C79_case : no_joins [SCreate; SCheck 5] /\
  option_map (fun c => map (fun n => (nd_beats n, st_role (nd_latest n))) (cl_nodes c))
    (match csteps c79_before cl_empty with Some c => csteps [SCreate; SCheck 5] (restart c) | None => None end) =
  Some [(false, Leader); (false, Follower)].
Proof. split; [by repeat constructor|vm_compute; reflexivity]. Qed.
