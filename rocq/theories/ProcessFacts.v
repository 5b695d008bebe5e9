(** Facts about Process.v: what is behind the sockets is an execution of Leader.v. *)
From Verif Require Export SpecProcess PropLeader FrameFacts.

(** ** More input at the end changes nothing before *)
Definition lets_be (g : list client -> list client) (h : nat -> client -> client) : Prop :=
  (forall l j k, l !! j = Some k -> g l !! j = Some (h j k)) /\
  (forall l j k', j < length l -> g (<[j := k']> l) = <[j := h j k']> (g l)) /\
  (forall j k, k_pc (h j k) = k_pc k) /\
  (forall en now j k b xs fw k' b' xs' fw', conn_step en now k b xs fw = Some (k', b', xs', fw') ->
     conn_step en now (h j k) b xs fw = Some (h j k', b', xs', fw')).

Lemma asks_pc k k' : k_pc k = k_pc k' -> asks_scan (Some k) = asks_scan (Some k').
Proof. destruct k as [i p o], k' as [i' p' o']. cbn. by intros ->. Qed.

Lemma cstep_more en g h now i cl cl' : lets_be g h -> cstep en (i, now) cl = Some cl' ->
  cstep en (i, now) (Clients (cs_db cl) (cs_exp cl) (cs_fwd cl) (g (cs_conns cl))) = Some (Clients (cs_db cl') (cs_exp cl') (cs_fwd cl') (g (cs_conns cl'))).
Proof.
  intros (G1 & G2 & _ & G4). unfold cstep. cbn [fst snd cs_db cs_exp cs_fwd cs_conns]. destruct (cs_conns cl !! i) as [k|] eqn:K; [|done].
  rewrite (G1 _ _ _ K). destruct (conn_step en now k _ _ _) as [[[[k' b'] xs'] fw']|] eqn:E; [|done]. rewrite (G4 _ _ _ _ _ _ _ _ _ _ _ E).
  intros [= <-]. cbn [cs_db cs_exp cs_fwd cs_conns]. rewrite G2; [done|]. by apply lookup_lt_Some in K.
Qed.
Lemma leader_step_more en g h ev x x' : lets_be g h -> leader_step en ev x = Some x' -> leader_step en ev (with_conns g x) = Some (with_conns g x').
Proof.
  intros LB. destruct x as [[b xs fw ks] q sc n nt pm pc], ev as [now u]. unfold leader_step. cbn [with_conns fst snd].
  assert (T : forall e x', task_step (e_ho en) now e (Leader (Clients b xs fw ks) q sc n nt pm pc) = Some x' ->
    task_step (e_ho en) now e (Leader (Clients b xs fw (g ks)) q sc n nt pm pc) = Some (with_conns g x')).
  { intros e y. unfold task_step. destruct (step _ _ _) as [[t' b' q' sc' xs' ts nt' pm' pc']|]; [|done]. by intros [= <-]. }
  destruct u as [i| | | | | | |]; try apply T.
  - destruct (cstep en (i, now) (Clients b xs fw ks)) as [cl'|] eqn:E; [|done]. intros [= <-].
    pose proof (cstep_more _ _ _ _ _ _ _ LB E) as M. cbn [cs_db cs_exp cs_fwd cs_conns] in M. rewrite M.
    destruct cl' as [b' xs' fw' ks']. cbn [with_conns cs_db cs_exp cs_fwd cs_conns]. f_equal. f_equal.
    unfold cstep in E. cbn [fst cs_conns] in *. destruct (ks !! i) as [k|] eqn:K; [|done]. destruct LB as (G1 & _ & G3 & _). rewrite (G1 _ _ _ K).
    f_equal. apply asks_pc. by rewrite G3.
  - cbn [cs_fwd cs_db cs_exp cs_conns]. destruct fw as [|m fw]; [done|]. by intros [= <-].
Qed.
Lemma leader_steps_more en g h evs x x' : lets_be g h -> leader_steps en evs x = Some x' -> leader_steps en evs (with_conns g x) = Some (with_conns g x').
Proof.
  intros LB. revert x. induction evs as [|ev evs IH]; intros x; [by intros [= ->]|]. cbn [leader_steps].
  destruct (leader_step en ev x) as [y|] eqn:E; [|done]. rewrite (leader_step_more _ _ _ _ _ _ LB E). apply IH.
Qed.

Lemma conn_step_give en now q k b xs fw k' b' xs' fw' : conn_step en now k b xs fw = Some (k', b', xs', fw') ->
  conn_step en now (give q k) b xs fw = Some (give q k', b', xs', fw').
Proof.
  destruct k as [ins pc out]. unfold conn_step, give. cbn [k_in k_pc k_out]. destruct pc as [|q0 [|c cs] rs|q0 cs rs [|e es] [|f fs] o|[|s ss]|f|hh].
  - destruct ins as [|q0 ins']; [done|]. cbn [app].
    assert (Q : forall (r : option (client * db * list exp_msg * list fwd_msg)) r', r' = option_map (fun y => let '(c, b, xs, fw) := y in (give q c, b, xs, fw)) r ->
      r = Some (k', b', xs', fw') -> r' = Some (give q k', b', xs', fw')) by (intros r r' -> ->; done).
    destruct q0; try (destruct (plan_of now _) as [[]| |]); by intros [= <- <- <- <-].
  - by intros [= <- <- <- <-].
  - destruct (db_exec (e_ho en) now c b) as [b1 o]. by intros [= <- <- <- <-].
  - by intros [= <- <- <- <-].
  - by intros [= <- <- <- <-].
  - by intros [= <- <- <- <-].
  - by intros [= <- <- <- <-].
  - by intros [= <- <- <- <-].
  - by intros [= <- <- <- <-].
  - by intros [= <- <- <- <-].
  - done.
Qed.
Lemma give_lets q i : lets_be (alter (give q) i) (fun j k => if Nat.eqb j i then give q k else k).
Proof.
  split_and!.
  - intros l j k E. destruct (Nat.eqb_spec j i) as [->|N]; [by rewrite list_lookup_alter, E|by rewrite list_lookup_alter_ne].
  - intros l j k' L. apply list_eq. intros n. destruct (Nat.eqb_spec j i) as [->|N].
    + destruct (decide (n = i)) as [->|M].
      * rewrite list_lookup_alter, !list_lookup_insert; rewrite ?alter_length; done.
      * rewrite list_lookup_alter_ne, !list_lookup_insert_ne, list_lookup_alter_ne by done. done.
    + destruct (decide (n = j)) as [->|M].
      * rewrite list_lookup_alter_ne, !list_lookup_insert; rewrite ?alter_length; done.
      * rewrite (list_lookup_insert_ne (alter _ _ _)) by done. destruct (decide (n = i)) as [->|M'].
        -- by rewrite !list_lookup_alter, list_lookup_insert_ne by done.
        -- by rewrite !list_lookup_alter_ne, list_lookup_insert_ne by done.
  - intros j k. by destruct (Nat.eqb j i).
  - intros en now j k b xs fw k' b' xs' fw' E. destruct (Nat.eqb j i); [by apply conn_step_give|done].
Qed.
Lemma new_lets c : lets_be (fun ks => ks ++ [c]) (fun _ k => k).
Proof.
  split_and!; try done.
  - intros l j k E. by apply lookup_app_l_Some.
  - intros l j k' L. by rewrite insert_app_l.
Qed.
Lemma start_new b ins : leader_start b (ins ++ [[]]) = with_conns (fun ks => ks ++ [Client [] KIdle []]) (leader_start b ins).
Proof. unfold leader_start, cs_start, with_conns. cbn. by rewrite map_app. Qed.
Lemma start_give b ins q i : leader_start b (alter (fun l => l ++ [q]) i ins) = with_conns (alter (give q) i) (leader_start b ins).
Proof.
  unfold leader_start, cs_start, with_conns. cbn. do 2 f_equal. apply list_eq. intros n. change (@map) with (fun A B f => @fmap list _ A B f).
  cbn beta. rewrite list_lookup_fmap. destruct (decide (n = i)) as [->|N].
  - rewrite !list_lookup_alter, list_lookup_fmap. by destruct (ins !! i).
  - by rewrite !list_lookup_alter_ne, list_lookup_fmap.
Qed.

(** ** Reading *)
Inductive reads : bytes -> list frame -> bytes -> Prop :=
  | reads_nil b : reads b [] b
  | reads_cons b f b1 fs r : parse b = POk f b1 -> reads b1 fs r -> reads b (f :: fs) r.
Lemma reads_snoc b fs r f r' : reads b fs r -> parse r = POk f r' -> reads b (fs ++ [f]) r'.
Proof. induction 1 as [b|b g b1 fs r P R IH]; intros E; cbn; econstructor; eauto. constructor. Qed.
Lemma reads_more b fs r c : reads b fs r -> reads (b ++ c) fs (r ++ c).
Proof. induction 1 as [b|b g b1 fs r P R IH]; [constructor|]. econstructor; [|done]. by apply parse_stable. Qed.
Definition stream (b : bytes) : list frame * conn_end := stream_frames (S (length b)) b.
Lemma stream_eq b : stream b = match parse b with
  | POk f r => let '(fs, e) := stream r in (f :: fs, e)
  | PError => ([], EndParse) | PIncomplete => ([], if bool_decide (b = []) then EndClean else EndReset) end.
Proof.
  unfold stream. cbn [stream_frames]. destruct (parse b) as [f r| |] eqn:P; [|done|done]. rewrite (stream_fuel (length b) (S (length r))); [done| |lia].
  by apply parse_progress in P.
Qed.
Lemma reads_stream b fs r : reads b fs r -> stream b = (fs ++ fst (stream r), snd (stream r)).
Proof. induction 1 as [b|b g b1 fs r P R IH]; [by destruct (stream b)|]. rewrite stream_eq, P, IH. done. Qed.
Lemma requests_stream cs : Forall (fun c => c <> []) cs -> conn_requests cs = stream (concat cs).
Proof. apply segmentation. Qed.

(** ** The invariant *)
Definition why (i : nat) (evs : list (N * pevent)) (s : sock) (r : bytes) (h : hend) : Prop :=
  match h with
  | HClean => r = [] /\ so_fin s = true
  | HError => failed i evs \/ (exists f r', parse r = POk f r' /\ from_frame f = None) \/ parse r = PError \/ (so_fin s = true /\ parse r = PIncomplete /\ r <> [])
  | _ => False
  end.
Definition sock_fine (evs : list (N * pevent)) (i : nat) (s : sock) (k : client) (l : list request) : Prop :=
  exists served r tail, reads (concat (arrived i evs)) served r /\ Forall2 (fun f q => from_frame f = Some q) served l /\
    so_out s = concat (map write (k_out k)) ++ tail /\
    (tail <> [] -> failed i evs /\ exists f n, k_pc k = KWrite f /\ tail = firstn n (write f) /\ so_end s = Some HError) /\
    match so_end s with None => r = so_buf s ++ concat (so_wire s) | Some h => why i evs s r h end.
Definition pr_fine (en : env) (b : db) (evs : list (N * pevent)) (x : process) : Prop := exists ins,
  leader_steps en (behind evs) (leader_start b ins) = Some (pr_ld x) /\
  length ins = length (pr_socks x) /\ length (cs_conns (ld_cl (pr_ld x))) = length (pr_socks x) /\
  (forall i, length (pr_socks x) <= i -> arrived i evs = []) /\ (forall i, Forall (fun c => c <> []) (arrived i evs)) /\
  forall i s k, pr_socks x !! i = Some s -> cs_conns (ld_cl (pr_ld x)) !! i = Some k -> sock_fine evs i s k (nth i ins []).

Lemma leader_steps_app en a c x : leader_steps en (a ++ c) x = match leader_steps en a x with Some y => leader_steps en c y | None => None end.
Proof. revert x. induction a as [|ev a IH]; intros x; [done|]. cbn. by destruct (leader_step en ev x). Qed.
Lemma psteps_app en a c x : psteps en (a ++ c) x = match psteps en a x with Some y => psteps en c y | None => None end.
Proof. revert x. induction a as [|ev a IH]; intros x; [done|]. cbn. by destruct (pstep en ev x). Qed.
Lemma behind_app a c : behind (a ++ c) = behind a ++ behind c. Proof. apply flat_map_app. Qed.
Lemma arrived_app i a c : arrived i (a ++ c) = arrived i a ++ arrived i c. Proof. apply flat_map_app. Qed.
Lemma failed_app i a c : failed i a -> failed i (a ++ c).
Proof. intros (t & [H|(n & H)]); exists t; [left|right; exists n]; apply in_or_app; by left. Qed.
Lemma leader_step_conns en ev x x' : leader_step en ev x = Some x' -> (forall i, snd ev <> LConn i) -> cs_conns (ld_cl x') = cs_conns (ld_cl x).
Proof.
  destruct x as [[b xs fw ks] q sc n nt pm pc], ev as [now u]. unfold leader_step. cbn [fst snd].
  assert (T : forall e x', task_step (e_ho en) now e (Leader (Clients b xs fw ks) q sc n nt pm pc) = Some x' -> cs_conns (ld_cl x') = ks).
  { intros e y. unfold task_step. destruct (step _ _ _) as [[t' b' q' sc' xs' ts nt' pm' pc']|]; [|done]. by intros [= <-]. }
  destruct u as [i| | | | | | |]; intros H NC; try (by apply T in H).
  - by destruct (NC i).
  - cbn in H. destruct fw; [done|]. by injection H as <-.
Qed.
(** What a step does to its own connection: it is written as the reply says, input is only taken. *)
Lemma conn_turn en now i x x' k : leader_step en (now, LConn i) x = Some x' -> cs_conns (ld_cl x) !! i = Some k ->
  exists k', cs_conns (ld_cl x') = <[i := k']> (cs_conns (ld_cl x)) /\
    k_out k' = k_out k ++ match k_pc k with KWrite f => [f] | _ => [] end /\ (forall h, k_pc k <> KEnd h).
Proof.
  destruct x as [[b xs fw ks] q sc n nt pm pc]. unfold leader_step, cstep. cbn [fst snd ld_cl cs_conns cs_db cs_exp cs_fwd]. intros H K. rewrite K in H.
  destruct (conn_step en now k b xs fw) as [[[[k' b'] xs'] fw']|] eqn:E; [|done]. injection H as <-. exists k'. cbn [ld_cl cs_conns]. split; [done|].
  destruct k as [ins pc0 out]. unfold conn_step in E. cbn [k_in k_pc k_out] in *. destruct pc0 as [|q0 [|c cs] rs|q0 cs rs [|e es] [|f fs] o|[|s ss]|f|hh].
  - destruct ins as [|q0 ins']; [done|].
    destruct q0; try (destruct (plan_of now _) as [[]| |]); injection E as <- <- <- <-; (split; [by rewrite app_nil_r|done]).
  - injection E as <- <- <- <-; (split; [by rewrite app_nil_r|done]).
  - destruct (db_exec (e_ho en) now c b) as [b1 o]. injection E as <- <- <- <-; (split; [by rewrite app_nil_r|done]).
  - injection E as <- <- <- <-; (split; [by rewrite app_nil_r|done]).
  - injection E as <- <- <- <-; (split; [by rewrite app_nil_r|done]).
  - injection E as <- <- <- <-; (split; [by rewrite app_nil_r|done]).
  - injection E as <- <- <- <-; (split; [by rewrite app_nil_r|done]).
  - injection E as <- <- <- <-; (split; [by rewrite app_nil_r|done]).
  - injection E as <- <- <- <-; (split; [by rewrite app_nil_r|done]).
  - injection E as <- <- <- <-; done.
  - done.
Qed.

(** Nothing has happened to this socket. *)
Lemma sock_fine_same evs ev i s k l : sock_fine evs i s k l -> arrived i [ev] = [] -> sock_fine (evs ++ [ev]) i s k l.
Proof.
  intros (sv & r & tl & R & F & O & T & W) A. exists sv, r, tl. rewrite arrived_app, A, app_nil_r. do 3 (split; [done|]). split.
  - intros N. destruct (T N) as (T1 & T2). split; [by apply failed_app|done].
  - destruct (so_end s) as [[]|]; try done. destruct W as [W|W]; [left; by apply failed_app|by right].
Qed.
Lemma concat_snoc {A} (l : list (list A)) x : concat (l ++ [x]) = concat l ++ x.
Proof. rewrite concat_app. cbn. by rewrite app_nil_r. Qed.
Lemma parse_nil : parse [] = PIncomplete. Proof. done. Qed.

Lemma pr_fine_step en b evs ev x x' : pr_fine en b evs x -> pstep en ev x = Some x' -> pr_fine en b (evs ++ [ev]) x'.
Proof.
  intros (ins & L & LI & LC & AN & NE & SF) H. destruct x as [ld ss lm], ev as [now e]. cbn [pr_ld pr_socks] in *.
  (* nothing behind the sockets and nothing on the network *)
  assert (Quiet : forall ss', behind [(now, e)] = [] -> (forall i, arrived i [(now, e)] = []) -> length ss' = length ss ->
    (forall i s k, ss' !! i = Some s -> cs_conns (ld_cl ld) !! i = Some k -> sock_fine (evs ++ [(now, e)]) i s k (nth i ins [])) ->
    forall lm', pr_fine en b (evs ++ [(now, e)]) (Process ld ss' lm')).
  { intros ss' B A LS S lm'. exists ins. cbn [pr_ld pr_socks]. rewrite behind_app, B, app_nil_r. split; [done|]. rewrite LS. do 2 (split; [done|]).
    split; [|split; [|done]]; intros i; rewrite arrived_app, A, app_nil_r; eauto. }
  (* the same with one socket changed *)
  assert (One : forall i s0 s1 k0, behind [(now, e)] = [] -> (forall i, arrived i [(now, e)] = []) -> ss !! i = Some s0 -> cs_conns (ld_cl ld) !! i = Some k0 ->
    sock_fine (evs ++ [(now, e)]) i s1 k0 (nth i ins []) -> forall lm', pr_fine en b (evs ++ [(now, e)]) (Process ld (<[i := s1]> ss) lm')).
  { intros i s0 s1 k0 B A S0 K0 F. apply Quiet; [done|done|by rewrite insert_length|]. intros j s k S K. destruct (decide (j = i)) as [->|N].
    - rewrite list_lookup_insert in S by (by apply lookup_lt_Some in S0). injection S as <-. rewrite K0 in K. by injection K as <-.
    - rewrite list_lookup_insert_ne in S by done. apply sock_fine_same; [by apply SF|apply A]. }
  unfold pstep in H. cbn [fst snd] in H. destruct e as [le| |i c|i|i|i|i|i n|i|u].
  - destruct le; try done; destruct (Limit.lstep _ lm); try done; injection H as <-; (apply Quiet; [done|done|done|]; intros i s k S K; apply sock_fine_same; [by apply SF|done]).
  - destruct (Limit.lstep _ lm) as [lm'|]; [|done]. injection H as <-. exists (ins ++ [[]]). cbn [pr_ld pr_socks].
    rewrite behind_app. cbn [behind flat_map snd app]. rewrite app_nil_r, start_new. split; [by eapply leader_steps_more; [apply (new_lets (Client [] KIdle []))|]|].
    destruct ld as [[b0 xs fw ks] q sc nn nt pm pc]. cbn [ld_cl cs_conns with_conns] in *. rewrite !app_length. cbn [length].
    split; [lia|]. split; [lia|]. split; [|split].
    + intros i Hi. rewrite arrived_app, AN by lia. done.
    + intros i. rewrite arrived_app. cbn. by rewrite app_nil_r.
    + intros i s k S K. destruct (decide (i < length ss)) as [Li|Li].
      * rewrite lookup_app_l in S by done. rewrite lookup_app_l in K by lia. rewrite app_nth1 by lia. apply sock_fine_same; [by apply SF|done].
      * rewrite lookup_app_r in S by lia. rewrite lookup_app_r in K by lia. apply list_lookup_singleton_Some in S as [Z <-]. apply list_lookup_singleton_Some in K as [_ <-].
        assert (i = length ins) as -> by lia. rewrite app_nth2, Nat.sub_diag by lia. cbn [nth]. exists [], [], []. cbn [k_out map concat app so_out so_end so_buf so_wire].
        rewrite arrived_app, AN by lia. cbn. split; [constructor|]. done.
  - destruct (ss !! i) as [s|] eqn:S; [|done]. destruct (so_fin s) eqn:FI; [done|]. cbn [orb] in H. destruct (bool_decide_reflect (c = [])) as [|NC]; [done|].
    injection H as <-. exists ins. cbn [pr_ld pr_socks]. rewrite behind_app. cbn [behind flat_map snd app]. rewrite app_nil_r, insert_length. do 3 (split; [done|]).
    assert (LS : i < length ss) by (by apply lookup_lt_Some in S). split; [|split].
    + intros j Hj. rewrite arrived_app, AN by lia. cbn. destruct (Nat.eqb_spec i j) as [->|]; [lia|done].
    + intros j. rewrite arrived_app. cbn. apply List.Forall_app. split; [done|]. destruct (Nat.eqb i j); cbn; [by constructor|done].
    + intros j s' k S' K. destruct (decide (j = i)) as [->|N].
      * rewrite list_lookup_insert in S' by done. injection S' as <-. destruct (SF i s k S K) as (sv & r & tl & R & F & O & T & W). exists sv, (r ++ c), tl.
        rewrite arrived_app, concat_app. cbn. rewrite Nat.eqb_refl. cbn. rewrite app_nil_r. split; [by apply reads_more|]. split; [done|]. split; [done|].
        split; [intros Nt; destruct (T Nt); split; [by apply failed_app|done]|]. destruct (so_end s) as [h|].
        -- destruct h; try done; cbn [why so_fin] in *; [destruct W as [_ W]; by rewrite FI in W|]. destruct W as [W|[(f & r' & P & Q)|[W|W]]].
           ++ left. by apply failed_app.
           ++ right; left. exists f, (r' ++ c). split; [by apply parse_stable|done].
           ++ right; right; left. by apply parse_stable.
           ++ destruct W as [W _]. by rewrite FI in W.
        -- rewrite W, concat_snoc. by rewrite app_assoc.
      * rewrite list_lookup_insert_ne in S' by done. apply sock_fine_same; [by apply SF|]. cbn. by destruct (Nat.eqb_spec i j) as [->|].
  - destruct (ss !! i) as [s|] eqn:S; [|done]. injection H as <-. destruct (cs_conns (ld_cl ld) !! i) as [k|] eqn:K; [|exfalso; apply lookup_ge_None in K; apply lookup_lt_Some in S; lia].
    eapply One; eauto. destruct (SF i s k S K) as (sv & r & tl & R & F & O & T & W). apply sock_fine_same; [|done]. exists sv, r, tl. do 4 (split; [done|]). cbn [so_end so_buf so_wire].
    destruct (so_end s) as [[]|]; try done; cbn [why so_fin] in *; [by destruct W|]. destruct W as [W|[W|[W|W]]]; [by left|by right; left|by right; right; left|]. right; right; right. by destruct W.
  - destruct (ss !! i) as [s|] eqn:S; [|done]. destruct (cs_conns (ld_cl ld) !! i) as [k|] eqn:K; [|done].
    destruct (so_end s) eqn:SE; [done|]. destruct (k_pc k) eqn:KP; try done. destruct (k_in k) as [|] eqn:KI; [|done].
    destruct (SF i s k S K) as (sv & r & tl & R & F & O & T & W). rewrite SE in W. subst r.
    assert (TL : tl = []) by (destruct tl as [|a tl]; [done|]; destruct (T ltac:(done)) as (_ & f & n & X & _); by rewrite KP in X). subst tl. rewrite app_nil_r in O.
    unfold read_step in H. destruct (parse (so_buf s)) as [f rest| |] eqn:P.
    + destruct (from_frame f) as [q|] eqn:FF; injection H as <-.
      * exists (alter (fun l => l ++ [q]) i ins). cbn [pr_ld pr_socks]. rewrite behind_app. cbn [behind flat_map snd app]. rewrite app_nil_r, start_give.
        split; [by eapply leader_steps_more; [apply give_lets|]|]. rewrite alter_length, insert_length. split; [done|].
        assert (CC : cs_conns (ld_cl (with_conns (alter (give q) i) ld)) = alter (give q) i (cs_conns (ld_cl ld))) by (by destruct ld as [[] ? ? ? ? ? ?]).
        rewrite CC, alter_length. split; [done|]. split; [|split].
        -- intros j Hj. rewrite arrived_app, AN by lia. done.
        -- intros j. rewrite arrived_app. cbn. by rewrite app_nil_r.
        -- intros j s' k' S' K'. destruct (decide (j = i)) as [->|N].
           ++ rewrite list_lookup_insert in S' by (by apply lookup_lt_Some in S). injection S' as <-. rewrite list_lookup_alter, K in K'. injection K' as <-.
              apply sock_fine_same; [|done].
              assert (NI : nth i (alter (fun l => l ++ [q]) i ins) [] = nth i ins [] ++ [q]).
              { rewrite !nth_lookup. destruct (lookup_lt_is_Some_2 ins i) as [y Y]; [apply lookup_lt_Some in S; lia|]. rewrite list_lookup_alter, Y. done. }
              rewrite NI. exists (sv ++ [f]), (rest ++ concat (so_wire s)), []. split; [eapply reads_snoc; [done|]; by apply parse_stable|]. split; [apply Forall2_app; [done|by constructor]|].
              unfold with_buf, give. cbn [so_out so_end so_buf so_wire k_out]. rewrite SE, app_nil_r. done.
           ++ rewrite list_lookup_insert_ne in S' by done. rewrite list_lookup_alter_ne in K' by done. apply sock_fine_same; [|done].
              assert (NI : nth j (alter (fun l => l ++ [q]) i ins) [] = nth j ins []) by (rewrite !nth_lookup; by rewrite list_lookup_alter_ne).
              rewrite NI. by apply SF.
      * eapply One; eauto. apply sock_fine_same; [|done]. exists sv, (so_buf s ++ concat (so_wire s)), []. unfold sock_ends, with_buf. cbn [so_out so_end].
        rewrite app_nil_r. do 4 (split; [done|]). cbn [why]. right; left. exists f, (rest ++ concat (so_wire s)). split; [by apply parse_stable|done].
    + destruct (so_wire s) as [|c cs] eqn:SW.
      * destruct (so_fin s) eqn:FI; [|done]. injection H as <-. eapply One; eauto. apply sock_fine_same; [|done]. exists sv, (so_buf s ++ concat []), []. unfold sock_ends. cbn [so_out so_end concat].
        rewrite !app_nil_r. cbn [concat] in R. rewrite app_nil_r in R. do 4 (split; [done|]). destruct (bool_decide_reflect (so_buf s = [])) as [E|E]; cbn [why so_fin]; [done|].
        right; right; right. done.
      * injection H as <-. eapply One; eauto. apply sock_fine_same; [|done]. exists sv, (so_buf s ++ concat (c :: cs)), []. cbn [so_out so_end so_buf so_wire]. rewrite SE, app_nil_r.
        do 4 (split; [done|]). cbn [concat]. by rewrite app_assoc.
    + injection H as <-. eapply One; eauto. apply sock_fine_same; [|done]. exists sv, (so_buf s ++ concat (so_wire s)), []. unfold sock_ends. cbn [so_out so_end].
      rewrite app_nil_r. do 4 (split; [done|]). cbn [why]. right; right; left. by apply parse_stable.
  - destruct (ss !! i) as [s|] eqn:S; [|done]. destruct (cs_conns (ld_cl ld) !! i) as [k|] eqn:K; [|done].
    destruct (so_end s) eqn:SE; [done|]. destruct (k_pc k) eqn:KP; try done. destruct (k_in k) as [|] eqn:KI; [|done]. destruct (parse (so_buf s)); try done. injection H as <-.
    eapply One; eauto. destruct (SF i s k S K) as (sv & r & tl & R & F & O & T & W). exists sv, r, tl. rewrite arrived_app. cbn. rewrite app_nil_r. do 3 (split; [done|]). split.
    + intros Nt. destruct (T Nt) as (_ & f & n & X & _). by rewrite KP in X.
    + left. exists now. left. apply in_or_app. right. by left.
  - destruct (ss !! i) as [s|] eqn:S; [|done]. destruct (cs_conns (ld_cl ld) !! i) as [k|] eqn:K; [|done]. destruct (so_end s) eqn:SE; [done|].
    destruct (leader_step en (now, LConn i) ld) as [ld'|] eqn:E; [|done]. injection H as <-. destruct (conn_turn _ _ _ _ _ _ E K) as (k' & CC & OU & NEn).
    exists ins. cbn [pr_ld pr_socks]. rewrite behind_app, leader_steps_app, L. cbn [behind flat_map fst snd app leader_steps]. rewrite E. split; [done|]. rewrite CC, !insert_length.
    do 2 (split; [done|]). split; [|split].
    + intros j Hj. rewrite arrived_app, AN by lia. done.
    + intros j. rewrite arrived_app. cbn. by rewrite app_nil_r.
    + intros j s' k0 S' K'. destruct (decide (j = i)) as [->|N].
      * rewrite list_lookup_insert in S' by (by apply lookup_lt_Some in S). injection S' as <-. rewrite list_lookup_insert in K' by (by apply lookup_lt_Some in K). injection K' as <-.
        apply sock_fine_same; [|done]. destruct (SF i s k S K) as (sv & r & tl & R & F & O & T & W). rewrite SE in W.
        assert (TL : tl = []) by (destruct tl as [|a tl]; [done|]; destruct (T ltac:(done)) as (_ & f & n & _ & _ & X); by rewrite SE in X). subst tl. rewrite app_nil_r in O.
        exists sv, r, []. do 2 (split; [done|]). unfold with_out. cbn [so_out so_end so_buf so_wire]. rewrite SE, app_nil_r. split; [|done].
        rewrite OU, map_app, concat_app, O. f_equal. destruct (k_pc k); cbn; by rewrite ?app_nil_r.
      * rewrite list_lookup_insert_ne in S' by done. rewrite list_lookup_insert_ne in K' by done. apply sock_fine_same; [by apply SF|done].
  - destruct (ss !! i) as [s|] eqn:S; [|done]. destruct (cs_conns (ld_cl ld) !! i) as [k|] eqn:K; [|done]. destruct (so_end s) eqn:SE; [done|]. destruct (k_pc k) as [| | | |f|] eqn:KP; try done. injection H as <-.
    assert (FA : failed i (evs ++ [(now, PBreak i n)])) by (exists now; right; exists n; apply in_or_app; right; by left).
    eapply One; eauto. destruct (SF i s k S K) as (sv & r & tl & R & F & O & T & W). exists sv, r, (firstn n (write f)). rewrite arrived_app. cbn [arrived flat_map snd app]. rewrite app_nil_r.
    assert (TL : tl = []) by (destruct tl as [|a tl]; [done|]; destruct (T ltac:(done)) as (_ & g & n' & _ & _ & X); by rewrite SE in X). subst tl. rewrite app_nil_r in O.
    do 2 (split; [done|]). split; [unfold sock_ends, with_out; cbn [so_out]; by rewrite O|]. split; [intros _; split; [done|]; by exists f, n|]. by left.
  - destruct (ss !! i) as [s|] eqn:S; [|done]. destruct (cs_conns (ld_cl ld) !! i) as [k|] eqn:K; [|done]. destruct (over s k); [|done]. destruct (Limit.lstep _ lm); [|done]. injection H as <-.
    apply Quiet; [done|done|done|]. intros j s' k' S' K'. apply sock_fine_same; [by apply SF|done].
  - assert (G : forall ld', leader_step en (now, u) ld = Some ld' -> (forall i, u <> LConn i) -> pr_fine en b (evs ++ [(now, PTask u)]) (Process ld' ss lm)).
    { intros ld' E NC. exists ins. cbn [pr_ld pr_socks]. rewrite behind_app, leader_steps_app, L. cbn [behind flat_map fst snd app leader_steps]. rewrite E.
      rewrite (leader_step_conns _ _ _ _ E NC). do 3 (split; [done|]). split; [|split].
      - intros j Hj. rewrite arrived_app, AN by lia. done.
      - intros j. rewrite arrived_app. cbn. by rewrite app_nil_r.
      - intros j s' k' S' K'. apply sock_fine_same; [by apply SF|done]. }
    destruct u; try done; (destruct (leader_step en _ ld) as [ld'|] eqn:E; [|done]); injection H as <-; by apply G.
Qed.
Lemma pr_fine_start en b max : pr_fine en b [] (pr_start b max).
Proof. exists []. cbn. do 4 (split; [done|]). split; [done|]. intros i s k H. by rewrite lookup_nil in H. Qed.
Lemma pr_fine_steps en b max evs x : psteps en evs (pr_start b max) = Some x -> pr_fine en b evs x.
Proof.
  revert x. induction evs as [|ev evs IH] using rev_ind; intros x H; [injection H as <-; apply pr_fine_start|].
  rewrite psteps_app in H. destruct (psteps en evs (pr_start b max)) as [y|]; [|done]. cbn [psteps] in H. destruct (pstep en ev y) as [z|] eqn:E; [|done]. injection H as <-.
  eapply pr_fine_step; [by apply IH|done].
Qed.
