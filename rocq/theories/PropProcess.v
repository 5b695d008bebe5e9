(** C113: the whole process, from the bytes that arrive to the bytes that are sent. *)
From Verif Require Export ProcessFacts.
From Verif Require PropLocks.

Lemma behind_sorted evs : StronglySorted N.le (map fst evs) -> StronglySorted N.le (map fst (behind evs)).
Proof.
  induction evs as [|[t e] evs IH]; [done|]. cbn [map fst]. intros S. apply StronglySorted_inv in S as [S F]. specialize (IH S).
  assert (FB : Forall (N.le t) (map fst (behind evs))).
  { apply List.Forall_forall. intros u U. rewrite List.Forall_forall in F. apply in_map_iff in U as ([u' y] & <- & U). apply in_flat_map in U as ([u0 e0] & U0 & U).
    assert (u' = u0) as -> by (destruct e0; cbn in U; try done; by destruct U as [[= <- <-]|[]]). apply F, in_map_iff. by exists (u0, e0). }
  destruct e; cbn; try done; by constructor.
Qed.
Lemma waits_rest en x i s k : pr_socks x !! i = Some s -> cs_conns (ld_cl (pr_ld x)) !! i = Some k -> waits en x i ->
  so_end s = None /\ k_pc k = KIdle /\ k_in k = [] /\ parse (so_buf s) = PIncomplete /\ so_wire s = [] /\ so_fin s = false.
Proof.
  intros S K (O & W). specialize (O s k S K). destruct x as [ld ss lm]. cbn [pr_ld pr_socks] in *. destruct (W 0%N) as [W1 W2]. unfold over in O.
  unfold pstep in W1, W2. cbn [fst snd] in W1, W2. rewrite S, K in W1, W2. destruct (so_end s); [done|].
  assert (KI : k_pc k = KIdle /\ k_in k = []).
  { destruct ld as [[b xs fw ks] q sc n nt pm pc]. unfold leader_step, cstep in W2. cbn [ld_cl cs_conns cs_db cs_exp cs_fwd fst snd] in *. rewrite K in W2.
    destruct (conn_step en 0 k b xs fw) as [[[[? ?] ?] ?]|] eqn:E; [done|]. clear W1 W2. destruct k as [ins pc0 out]. unfold conn_step in E. cbn [k_in k_pc k_out] in *.
    destruct pc0 as [|q0 [|c cs] rs|q0 cs rs [|e es] [|f fs] o|[|s' ss']|f|hh]; try done.
    - destruct ins as [|q0 ins']; [done|]. exfalso. destruct q0; try (destruct (plan_of _ _) as [[]| |]); done.
    - by destruct (db_exec (e_ho en) 0 c b). }
  destruct KI as [KP KI]. rewrite KP, KI in W1. do 3 (split; [done|]). unfold read_step in W1. destruct (parse (so_buf s)) as [f r| |]; [by destruct (from_frame f)| |done].
  split; [done|]. destruct (so_wire s); [|done]. by destruct (so_fin s).
Qed.

(** What a socket knows of the other side. *)
Lemma fin_step en now e x x' i s' : pstep en (now, e) x = Some x' -> pr_socks x' !! i = Some s' ->
  so_fin s' = (match e with PFin j => Nat.eqb j i | _ => false end) || match pr_socks x !! i with Some s => so_fin s | None => false end.
Proof.
  intros H S'. destruct x as [ld ss lm]. cbn [pr_socks].
  assert (Same : forall ld' lm', Some (Process ld' ss lm') = Some x' -> so_fin s' = match ss !! i with Some s => so_fin s | None => false end).
  { intros ld' lm' [= <-]. cbn in S'. by rewrite S'. }
  assert (One : forall j s0 s1 ld' lm', Some (Process ld' (<[j := s1]> ss) lm') = Some x' -> ss !! j = Some s0 -> so_fin s1 = so_fin s0 ->
    so_fin s' = match ss !! i with Some s => so_fin s | None => false end).
  { intros j s0 s1 ld' lm' [= <-] J E. cbn in S'. destruct (decide (j = i)) as [->|N].
    - rewrite list_lookup_insert in S' by (by apply lookup_lt_Some in J). injection S' as <-. by rewrite J.
    - rewrite list_lookup_insert_ne in S' by done. by rewrite S'. }
  unfold pstep in H. cbn [fst snd] in H. destruct e as [le| |j c|j|j|j|j|j n|j|u]; cbn [orb].
  - destruct le; try done; (destruct (Limit.lstep _ lm); [|done]); by eapply Same.
  - destruct (Limit.lstep _ lm); [|done]. injection H as <-. cbn in S'. destruct (ss !! i) as [s|] eqn:S.
    + rewrite lookup_app_l in S' by (by apply lookup_lt_Some in S). rewrite S in S'. by injection S' as <-.
    + rewrite lookup_app_r in S' by (by apply lookup_ge_None in S). by apply list_lookup_singleton_Some in S' as [_ <-].
  - destruct (ss !! j) as [s|] eqn:J; [|done]. destruct (so_fin s) eqn:F; [done|]. cbn [orb] in H. destruct (bool_decide _); [done|]. by eapply One.
  - destruct (ss !! j) as [s|] eqn:J; [|done]. injection H as <-. cbn in S'. destruct (Nat.eqb_spec j i) as [->|N]; cbn [orb].
    + rewrite list_lookup_insert in S' by (by apply lookup_lt_Some in J). by injection S' as <-.
    + rewrite list_lookup_insert_ne in S' by done. by rewrite S'.
  - destruct (ss !! j) as [s|] eqn:J; [|done]. destruct (cs_conns _ !! j) as [k|]; [|done]. destruct (so_end s) eqn:SE; [done|].
    destruct (k_pc k); try done. destruct (k_in k); [|done]. destruct (read_step s) as [[s2 o]|] eqn:R; [|done].
    assert (F : so_fin s2 = so_fin s).
    { unfold read_step in R. destruct (parse (so_buf s)) as [f r| |]; [destruct (from_frame f)|destruct (so_wire s); [destruct (so_fin s) eqn:FI|]|]; try done;
        injection R as <- _; done. }
    destruct o; by eapply One.
  - destruct (ss !! j) as [s|] eqn:J; [|done]. destruct (cs_conns _ !! j) as [k|]; [|done]. destruct (so_end s); [done|].
    destruct (k_pc k); try done. destruct (k_in k); [|done]. destruct (parse _); try done. by eapply One.
  - destruct (ss !! j) as [s|] eqn:J; [|done]. destruct (cs_conns _ !! j) as [k|]; [|done]. destruct (so_end s); [done|].
    destruct (leader_step _ _ _); [|done]. by eapply One.
  - destruct (ss !! j) as [s|] eqn:J; [|done]. destruct (cs_conns _ !! j) as [k|]; [|done]. destruct (so_end s); [done|].
    destruct (k_pc k); try done. by eapply One.
  - destruct (ss !! j) as [s|] eqn:J; [|done]. destruct (cs_conns _ !! j) as [k|]; [|done]. destruct (over s k); [|done].
    destruct (Limit.lstep _ lm); [|done]. by eapply Same.
  - destruct u; try done; (destruct (leader_step en _ ld); [|done]); cbn [option_map] in H; eapply Same; exact H.
Qed.
Lemma socks_grow en ev x x' : pstep en ev x = Some x' -> length (pr_socks x) <= length (pr_socks x').
Proof.
  intros H. destruct x as [ld ss lm], ev as [now e]. unfold pstep in H. cbn [fst snd pr_socks] in *.
  destruct e as [le| |j c|j|j|j|j|j n|j|u];
    repeat (match type of H with context [match ?a with _ => _ end] => destruct a end; try done);
    try (injection H as <-; cbn [pr_socks]; rewrite ?insert_length, ?app_length; lia);
    (destruct (Limit.lstep _ lm) || destruct (leader_step _ _ _)); try done; injection H as <-; cbn [pr_socks]; rewrite ?app_length; lia.
Qed.
Lemma fin_closed en b max evs x i : psteps en evs (pr_start b max) = Some x ->
  closed i evs <-> exists s, pr_socks x !! i = Some s /\ so_fin s = true.
Proof.
  revert x. induction evs as [|[now e] evs IH] using rev_ind; intros x H.
  - cbn in H. injection H as <-. split; [intros [t []]|intros (s & S & _); done].
  - rewrite psteps_app in H. destruct (psteps en evs _) as [y|] eqn:Y; [|done]. cbn in H. destruct (pstep en (now, e) y) as [x1|] eqn:E; [|done]. injection H as ->.
    specialize (IH y eq_refl). split.
    + intros [t I]. assert (L : exists s0, pr_socks y !! i = Some s0 /\ (so_fin s0 = true \/ e = PFin i)).
      { apply in_app_or in I as [I|[I|[]]].
        - destruct (proj1 IH) as (s0 & S0 & F0); [by exists t|]. exists s0. by auto.
        - injection I as _ ->. destruct y as [ld ss lm]. cbn in E. destruct (ss !! i) as [s0|] eqn:S0; [|done]. exists s0. by auto. }
      destruct L as (s0 & S0 & L). destruct (lookup_lt_is_Some_2 (pr_socks x) i) as [s S].
      { apply lookup_lt_Some in S0. apply socks_grow in E. lia. }
      exists s. split; [done|]. rewrite (fin_step _ _ _ _ _ _ _ E S), S0. destruct L as [->| ->]; [apply orb_true_r|by rewrite Nat.eqb_refl].
    + intros (s & S & F). rewrite (fin_step _ _ _ _ _ _ _ E S) in F. apply orb_true_iff in F as [F|F].
      * destruct e; try done. apply Nat.eqb_eq in F as ->. exists now. apply in_or_app. right. by left.
      * destruct (pr_socks y !! i) as [s0|] eqn:S0; [|done]. destruct (proj2 IH) as [t I]; [by exists s0|]. exists t. apply in_or_app. by left.
Qed.

(** Whatever happens on the network and in the process: one sequence of deeds explains the bytes sent to every client by the bytes that it
    has sent and what was in the database; a client that has been waiting long enough for the server to wait for it has the replies to
    everything that it has sent completely; and no handler ends without reason. *)
Theorem C113_bytes : exists num, reads_counters num /\ forall en b m max evs x,
  horder_ok (e_ho en) -> shows 0 b m -> orderly m -> psteps en evs (pr_start b max) = Some x -> StronglySorted N.le (map fst evs) ->
  (forall i f q, In f (fst (conn_requests (arrived i evs))) -> from_frame f = Some q -> separable q) ->
  exists l fs m' t, play en num m l fs m' /\ shows t (cs_db (ld_cl (pr_ld x))) m' /\ forward 0 (dids l) /\ Forall (fun d => doer d < length (pr_socks x)) l /\
    forall i s, pr_socks x !! i = Some s -> exists served rest qs more ps rs cut,
      fst (conn_requests (arrived i evs)) = served ++ rest /\ Forall2 (fun f q => from_frame f = Some q) served (qs ++ more) /\
      merged qs ps rs /\ so_out s = concat (map write rs) ++ cut /\ (cut <> [] -> failed i evs) /\
      (exists last, fated i (dids l) fs = map inl ps ++ last) /\ (exists future, flat_map script (flat_map parts (qs ++ more)) = acts i l ++ future) /\
      (forall h, so_end s = Some h -> match h with
         | HClean => rest = [] /\ snd (conn_requests (arrived i evs)) = EndClean /\ closed i evs
         | HError => failed i evs \/ (exists f rest', rest = f :: rest' /\ from_frame f = None) \/
             rest = [] /\ (snd (conn_requests (arrived i evs)) = EndParse \/ snd (conn_requests (arrived i evs)) = EndReset /\ closed i evs)
         | _ => False end) /\
      (waits en x i -> rest = [] /\ more = [] /\ cut = [] /\ fated i (dids l) fs = map inl ps /\ acts i l = flat_map script (flat_map parts qs) /\
         ~ closed i evs /\ snd (conn_requests (arrived i evs)) <> EndParse).
Proof.
  destruct C112_clients as (num & RC & C). exists num. split; [done|]. intros en b m max evs x HO SH OR H ST PR.
  destruct (pr_fine_steps _ _ _ _ _ H) as (ins & L & LI & LC & AN & NE & SF).
  assert (CR : forall i, conn_requests (arrived i evs) = stream (concat (arrived i evs))) by (intros i; by apply requests_stream).
  assert (FI : Forall (Forall separable) ins).
  { apply List.Forall_forall. intros li IN. apply elem_of_list_In, elem_of_list_lookup in IN as (i & IN). pose proof (lookup_lt_Some _ _ _ IN) as LT.
    destruct (lookup_lt_is_Some_2 (pr_socks x) i) as [s S]; [lia|]. destruct (lookup_lt_is_Some_2 (cs_conns (ld_cl (pr_ld x))) i) as [k K]; [lia|].
    destruct (SF i s k S K) as (sv & r & tl & R & F & _). rewrite nth_lookup, IN in F. cbn in F. apply List.Forall_forall. intros q Q.
    apply elem_of_list_In, elem_of_list_lookup in Q as (n & Q). destruct (Forall2_lookup_r _ _ _ _ _ F Q) as (f & Fn & E). apply (PR i f q); [|done].
    rewrite CR, (reads_stream _ _ _ R). cbn [fst]. apply in_or_app. left. apply elem_of_list_In. by eapply elem_of_list_lookup_2. }
  destruct (C en b m ins (behind evs) (pr_ld x) HO SH OR FI L (behind_sorted _ ST)) as (l & fs & m' & t & P & S1 & FW & DO & CO).
  exists l, fs, m', t. do 3 (split; [done|]). split; [by rewrite <- LI|]. intros i s S.
  destruct (lookup_lt_is_Some_2 (cs_conns (ld_cl (pr_ld x))) i) as [k K]; [apply lookup_lt_Some in S; lia|].
  assert (CL : closed i evs <-> so_fin s = true).
  { rewrite (fin_closed _ _ _ _ _ i H). split; [intros (s1 & S1' & F1); congruence|by exists s]. }
  destruct (SF i s k S K) as (sv & r & cut & R & F & O & T & W). destruct (CO i k K) as (qs & more & ps & E & M & LA & FU & ID).
  rewrite E in F, FU. exists sv, (fst (stream r)), qs, more, ps, (k_out k), cut. rewrite CR, (reads_stream _ _ _ R). cbn [fst snd].
  do 4 (split; [done|]). split; [intros N; by destruct (T N)|]. do 2 (split; [done|]). split.
  - intros h EH. rewrite EH in W. destruct h; cbn [why] in W; try done.
    + destruct W as [-> W]. split; [done|]. split; [done|]. by apply CL.
    + destruct W as [W|[(f & r' & W1 & W2)|[W|(W1 & W2 & W3)]]]; [by left| | |].
      * right; left. rewrite stream_eq, W1. destruct (stream r') as [fs' e']. by exists f, fs'.
      * right; right. rewrite stream_eq, W. split; [done|]. by left.
      * right; right. rewrite stream_eq, W2. split; [done|]. right. rewrite bool_decide_false by done. split; [done|by apply CL].
  - intros WA. destruct (waits_rest _ _ _ _ _ S K WA) as (W1 & W2 & W3 & W4 & W5 & W6). rewrite W1 in W. destruct (ID W2) as (I1 & I2 & I3). subst r.
    rewrite W5. cbn [concat]. rewrite app_nil_r, stream_eq, W4. split; [done|]. split; [by rewrite I1, W3|]. split.
    + destruct cut as [|a cut]; [done|]. destruct (T ltac:(done)) as (_ & f & n & X & _). by rewrite W2 in X.
    + do 2 (split; [done|]). split; [intros C1; apply CL in C1; congruence|]. cbn. by destruct (bool_decide _).
Qed.
Print Assumptions C113_bytes.

(** ** Nothing stops a handler but a client that has not sent enough *)
Inductive runs (en : env) (now : N) : client * db * list exp_msg * list fwd_msg -> client * db * list exp_msg * list fwd_msg -> Prop :=
  | runs_nil z : runs en now z z
  | runs_cons k b xs fw z z' : conn_step en now k b xs fw = Some z -> runs en now z z' -> runs en now (k, b, xs, fw) z'.
Lemma runs_trans en now a c d : runs en now a c -> runs en now c d -> runs en now a d.
Proof. induction 1; [done|]. econstructor; eauto. Qed.
Definition halts (n : nat) (z : client * db * list exp_msg * list fwd_msg) : Prop :=
  let k := fst (fst (fst z)) in (k_pc k = KIdle /\ length (k_in k) = n) \/ exists h, k_pc k = KEnd h.
Lemma runs_write en now ins f out b xs fw : exists z, runs en now (Client ins (KWrite f) out, b, xs, fw) z /\ halts (length ins) z.
Proof. eexists. split; [econstructor; [done|constructor]|]. by left. Qed.
Lemma runs_end en now ins h out b xs fw : exists z, runs en now (Client ins (KEnd h) out, b, xs, fw) z /\ halts (length ins) z.
Proof. eexists. split; [constructor|]. right. by eexists. Qed.
Lemma runs_go en now k b xs fw z n : conn_step en now k b xs fw = Some z -> (exists z', runs en now z z' /\ halts n z') -> exists z', runs en now (k, b, xs, fw) z' /\ halts n z'.
Proof. intros E (z' & R & H). exists z'. split; [by econstructor|done]. Qed.
Lemma runs_send en now ins q cs rs out o n : (forall r b xs fw, exists z, runs en now (Client ins (KRun q cs r) out, b, xs, fw) z /\ halts n z) -> n = length ins ->
  forall fs es b xs fw, exists z, runs en now (Client ins (KSend q cs rs es fs o) out, b, xs, fw) z /\ halts n z.
Proof.
  intros H ->. induction fs as [|f fs IHf]; (induction es as [|e es IHe]; intros b xs fw; (eapply runs_go; [done|])).
  - destruct o; [apply H|apply runs_write|apply runs_end].
  - apply IHe.
  - apply IHf.
  - apply IHe.
Qed.
Lemma runs_run en now ins q out cs : forall rs b xs fw, exists z, runs en now (Client ins (KRun q cs rs) out, b, xs, fw) z /\ halts (length ins) z.
Proof.
  induction cs as [|c cs IH]; intros rs b xs fw.
  - eapply runs_go; [done|]. destruct (answer en now q rs); [apply runs_write|apply runs_write|apply runs_end].
  - destruct (db_exec (e_ho en) now c b) as [b' o] eqn:E. eapply runs_go; [unfold conn_step; rewrite E; done|]. by apply runs_send.
Qed.
Lemma runs_flush en now ins out ss : forall b xs fw, exists z, runs en now (Client ins (KFlush ss) out, b, xs, fw) z /\ halts (length ins) z.
Proof. induction ss as [|s ss IH]; intros b xs fw; (eapply runs_go; [done|]); [apply runs_write|apply IH]. Qed.
Lemma runs_idle en now ins out b xs fw q : exists z, runs en now (Client (q :: ins) KIdle out, b, xs, fw) z /\ halts (length ins) z.
Proof.
  assert (H : exists pc, conn_step en now (Client (q :: ins) KIdle out) b xs fw = Some (Client ins pc out, b, xs, fw) /\
    ((exists f, pc = KWrite f) \/ (exists h, pc = KEnd h) \/ pc = KFlush all_slots \/ exists cs, pc = KRun q cs [])).
  { unfold conn_step. destruct q; try (destruct (plan_of now _) as [[]| |]); (eexists; split; [done|]); eauto 6. }
  destruct H as (pc & E & PC). eapply runs_go; [done|]. destruct PC as [(f & ->)|[(h & ->)|[->|(cs & ->)]]]; [apply runs_write|apply runs_end|apply runs_flush|apply runs_run].
Qed.
Lemma runs_all en now n : forall k b xs fw, length (k_in k) <= n -> exists z, runs en now (k, b, xs, fw) z /\ halts 0 z.
Proof.
  induction n as [|n IH].
  - intros k b xs fw L. destruct k as [[|] pc out]; [|cbn in L; lia]. destruct pc as [|q cs rs|q cs rs es fs o|ss|f|h].
    + eexists. split; [constructor|]. by left.
    + apply (runs_run en now []).
    + apply (runs_send en now [] q cs rs out o 0); [|done]. apply (runs_run en now []).
    + apply (runs_flush en now []).
    + apply (runs_write en now []).
    + apply (runs_end en now []).
  - assert (J : forall k b xs fw, length (k_in k) <= S n -> (exists z, runs en now (k, b, xs, fw) z /\ halts n z) -> exists z, runs en now (k, b, xs, fw) z /\ halts 0 z).
    { intros k b xs fw L ([[[k' b'] xs'] fw'] & R & [[H1 H2]|(h & H)]); cbn [fst] in *.
      - destruct (IH k' b' xs' fw') as (z & R' & HZ); [lia|]. exists z. split; [by eapply runs_trans|done].
      - eexists. split; [done|]. right. by exists h. }
    assert (I : forall q ins out b xs fw, length ins <= n -> exists z, runs en now (Client (q :: ins) KIdle out, b, xs, fw) z /\ halts 0 z).
    { intros q ins out b xs fw L. destruct (runs_idle en now ins out b xs fw q) as ([[[k' b'] xs'] fw'] & R & [[H1 H2]|(h & H)]); cbn [fst] in *.
      - destruct (IH k' b' xs' fw') as (z & R' & HZ); [lia|]. exists z. split; [by eapply runs_trans|done].
      - eexists. split; [done|]. right. by exists h. }
    assert (K0 : forall k b xs fw, length (k_in k) <= S n -> k_pc k = KIdle -> exists z, runs en now (k, b, xs, fw) z /\ halts 0 z).
    { intros [ins pc out] b xs fw L E. cbn in L, E. subst pc. destruct ins as [|q ins]; [eexists; split; [constructor|]; by left|]. apply I. cbn in L. lia. }
    assert (K1 : forall k b xs fw, length (k_in k) <= S n -> (exists z, runs en now (k, b, xs, fw) z /\ halts (length (k_in k)) z) -> exists z, runs en now (k, b, xs, fw) z /\ halts 0 z).
    { intros k b xs fw L ([[[k' b'] xs'] fw'] & R & [[H1 H2]|(h & H)]); cbn [fst] in *.
      - destruct (K0 k' b' xs' fw') as (z & R' & HZ); [lia|done|]. exists z. split; [by eapply runs_trans|done].
      - eexists. split; [done|]. right. by exists h. }
    intros k b xs fw L. destruct k as [ins pc out]. destruct pc as [|q cs rs|q cs rs es fs o|ss|f|h].
    + by apply K0.
    + apply K1; [done|]. apply runs_run.
    + apply K1; [done|]. apply runs_send; [|done]. apply runs_run.
    + apply K1; [done|]. apply runs_flush.
    + apply K1; [done|]. apply runs_write.
    + apply K1; [done|]. apply runs_end.
Qed.

(** In the process. *)
Definition alone_to (en : env) (now : N) (i : nat) (x x' : process) : Prop := exists evs,
  Forall (fun ev => fst ev = now /\ own i (snd ev) = true) evs /\ psteps en evs x = Some x'.
Lemma alone_refl en now i x : alone_to en now i x x. Proof. exists []. done. Qed.
Lemma alone_trans en now i x y z : alone_to en now i x y -> alone_to en now i y z -> alone_to en now i x z.
Proof. intros (a & A & X) (c & D & Y). exists (a ++ c). split; [by apply Forall_app|]. by rewrite psteps_app, X. Qed.
Lemma alone_one en now i e x y : own i e = true -> pstep en (now, e) x = Some y -> alone_to en now i x y.
Proof. intros O E. exists [(now, e)]. split; [by constructor|]. cbn [psteps]. by rewrite E. Qed.
Lemma runs_process en now i z z' : runs en now z z' -> forall x s, pr_socks x !! i = Some s -> so_end s = None ->
  cs_conns (ld_cl (pr_ld x)) !! i = Some (fst (fst (fst z))) -> z = (fst (fst (fst z)), cs_db (ld_cl (pr_ld x)), cs_exp (ld_cl (pr_ld x)), cs_fwd (ld_cl (pr_ld x))) ->
  exists x' s', alone_to en now i x x' /\ pr_socks x' !! i = Some s' /\ cs_conns (ld_cl (pr_ld x')) !! i = Some (fst (fst (fst z'))) /\
    so_end s' = None /\ so_buf s' = so_buf s /\ so_wire s' = so_wire s /\ so_fin s' = so_fin s.
Proof.
  induction 1 as [z|k b xs fw z z' E R IH]; intros x s S SE K Z.
  - exists x, s. split; [apply alone_refl|]. done.
  - cbn [fst] in K, Z. destruct x as [[[b0 xs0 fw0 ks] q sc n nt pm pc] ss lm]. cbn [pr_socks pr_ld ld_cl cs_conns cs_db cs_exp cs_fwd] in *. injection Z as <- <- <-.
    destruct z as [[[k1 b1] xs1] fw1]. set (s1 := with_out (match k_pc k with KWrite f => write f | _ => [] end) s).
    set (x1 := Process (Leader (Clients b1 xs1 fw1 (<[i := k1]> ks)) q sc (asks_scan (Some k) + n) nt pm pc) (<[i := s1]> ss) lm).
    assert (ST : pstep en (now, PConn i) (Process (Leader (Clients b xs fw ks) q sc n nt pm pc) ss lm) = Some x1).
    { unfold pstep. cbn [fst snd ld_cl cs_conns]. rewrite S, K, SE. unfold leader_step, cstep. cbn [fst snd cs_conns cs_db cs_exp cs_fwd]. rewrite K, E. done. }
    destruct (IH x1 s1) as (x' & s' & A & I); [apply list_lookup_insert; by apply lookup_lt_Some in S|done| |done|].
    + cbn [x1 pr_ld ld_cl cs_conns fst]. apply list_lookup_insert. by apply lookup_lt_Some in K.
    + exists x', s'. split; [|done]. eapply alone_trans; [|exact A]. eapply alone_one; [|done]. cbn. apply Nat.eqb_refl.
Qed.
Lemma halted en now i x s k : pr_socks x !! i = Some s -> cs_conns (ld_cl (pr_ld x)) !! i = Some k -> so_end s = None ->
  exists x' s' k', alone_to en now i x x' /\ pr_socks x' !! i = Some s' /\ cs_conns (ld_cl (pr_ld x')) !! i = Some k' /\
    so_end s' = None /\ so_buf s' = so_buf s /\ so_wire s' = so_wire s /\ so_fin s' = so_fin s /\ ((k_pc k' = KIdle /\ k_in k' = []) \/ exists h, k_pc k' = KEnd h).
Proof.
  intros S K SE. destruct (runs_all en now (length (k_in k)) k (cs_db (ld_cl (pr_ld x))) (cs_exp (ld_cl (pr_ld x))) (cs_fwd (ld_cl (pr_ld x)))) as (z & R & H); [done|].
  destruct (runs_process _ _ _ _ _ R x s S SE K eq_refl) as (x' & s' & A & S' & K' & B). exists x', s', (fst (fst (fst z))). do 3 (split; [done|]).
  destruct B as (B1 & B2 & B3 & B4). do 4 (split; [done|]). destruct H as [[H1 H2]|H]; [left|by right]. split; [done|]. by destruct (k_in (fst (fst (fst z)))).
Qed.
Lemma waits_intro en x i s k : pr_socks x !! i = Some s -> cs_conns (ld_cl (pr_ld x)) !! i = Some k ->
  so_end s = None -> k_pc k = KIdle -> k_in k = [] -> read_step s = None -> waits en x i.
Proof.
  intros S K SE KP KI RS. split.
  - intros s' k' S' K'. rewrite S in S'. rewrite K in K'. injection S' as <-. injection K' as <-. unfold over. by rewrite SE, KP.
  - intros now. destruct x as [[[b xs fw ks] q sc n nt pm pc] ss lm]. cbn [pr_socks pr_ld ld_cl cs_conns] in *. unfold pstep. cbn [fst snd ld_cl cs_conns]. rewrite S, K, SE, KP, KI, RS. split; [done|].
    unfold leader_step, cstep. cbn [fst snd cs_conns]. rewrite K. destruct k as [ins pc0 out]. cbn in KP, KI. subst. done.
Qed.
(** From every moment of every execution, whatever the other handlers, the tasks and the listener are in the midst of: handler [i] on its
    own comes to the point where it waits for its client, or ends. *)
Theorem C113_progress en b max evs x i now : psteps en evs (pr_start b max) = Some x -> i < length (pr_socks x) ->
  exists evs' x', Forall (fun ev => fst ev = now /\ own i (snd ev) = true) evs' /\ psteps en evs' x = Some x' /\
    (waits en x' i \/ exists s k h, pr_socks x' !! i = Some s /\ cs_conns (ld_cl (pr_ld x')) !! i = Some k /\ over s k = Some h).
Proof.
  intros H LT. destruct (pr_fine_steps _ _ _ _ _ H) as (ins & _ & _ & LC & _ & _ & _).
  destruct (lookup_lt_is_Some_2 (pr_socks x) i LT) as [s S]. destruct (lookup_lt_is_Some_2 (cs_conns (ld_cl (pr_ld x))) i) as [k K]; [lia|]. clear H LC LT ins.
  cut (exists x', alone_to en now i x x' /\ (waits en x' i \/ exists s k h, pr_socks x' !! i = Some s /\ cs_conns (ld_cl (pr_ld x')) !! i = Some k /\ over s k = Some h)).
  { intros (x' & (evs' & A & B) & C). by exists evs', x'. }
  remember (length (so_buf s ++ concat (so_wire s))) as n eqn:N. revert x s k S K N. induction n as [n IHn] using lt_wf_ind. intros x s k S K N.
  remember (length (so_wire s)) as w eqn:W. revert x s k S K N W. induction w as [w IHw] using lt_wf_ind. intros x s k S K N W.
  destruct (so_end s) as [h|] eqn:SE; [exists x; split; [apply alone_refl|]; right; exists s, k, h; unfold over; by rewrite SE|].
  destruct (halted en now i x s k S K SE) as (x1 & s1 & k1 & A1 & S1 & K1 & SE1 & B1 & W1 & F1 & [[KP KI]|(h & KP)]).
  2:{ exists x1. split; [done|]. right. exists s1, k1, h. unfold over. by rewrite SE1, KP. }
  destruct (read_step s1) as [[s2 [q|]]|] eqn:RS.
  - set (x2 := Process (with_conns (alter (give q) i) (pr_ld x1)) (<[i := s2]> (pr_socks x1)) (pr_lim x1)).
    assert (ST : pstep en (now, PRead i) x1 = Some x2) by (destruct x1 as [ld ss lm]; cbn [pr_socks pr_ld] in *; unfold pstep; cbn [fst snd]; by rewrite S1, K1, SE1, KP, KI, RS).
    assert (S2 : pr_socks x2 !! i = Some s2) by (apply list_lookup_insert; by apply lookup_lt_Some in S1).
    assert (K2 : cs_conns (ld_cl (pr_ld x2)) !! i = Some (give q k1)).
    { cbn [x2 pr_ld]. destruct (pr_ld x1) as [[b0 xs fw ks] q0 sc nn nt pm pc]. cbn [with_conns ld_cl cs_conns] in *. by rewrite list_lookup_alter, K1. }
    assert (LE : length (so_buf s2 ++ concat (so_wire s2)) < n).
    { unfold read_step in RS. destruct (parse (so_buf s1)) as [f r| |] eqn:P; [|destruct (so_wire s1); [by destruct (so_fin s1)|done]|done].
      destruct (from_frame f); [|done]. injection RS as <- <-. cbn [with_buf so_buf so_wire]. apply parse_progress in P. rewrite N, !app_length, <- B1, <- W1. lia. }
    destruct (IHn _ LE x2 s2 _ S2 K2 eq_refl) as (x' & A' & R). exists x'. split; [|done]. eapply alone_trans; [exact A1|]. eapply alone_trans; [|exact A'].
    eapply alone_one; [|done]. cbn. apply Nat.eqb_refl.
  - set (x2 := Process (pr_ld x1) (<[i := s2]> (pr_socks x1)) (pr_lim x1)).
    assert (ST : pstep en (now, PRead i) x1 = Some x2) by (destruct x1 as [ld ss lm]; cbn [pr_socks pr_ld] in *; unfold pstep; cbn [fst snd]; by rewrite S1, K1, SE1, KP, KI, RS).
    assert (S2 : pr_socks x2 !! i = Some s2) by (apply list_lookup_insert; by apply lookup_lt_Some in S1).
    assert (A2 : alone_to en now i x x2) by (eapply alone_trans; [exact A1|]; eapply alone_one; [|done]; cbn; apply Nat.eqb_refl).
    assert (Done : forall h, so_end s2 = Some h -> exists x', alone_to en now i x x' /\ (waits en x' i \/ exists s k h, pr_socks x' !! i = Some s /\ cs_conns (ld_cl (pr_ld x')) !! i = Some k /\ over s k = Some h)).
    { intros h E. exists x2. split; [done|]. right. exists s2, k1, h. split; [done|]. split; [done|]. unfold over. by rewrite E. }
    unfold read_step in RS. destruct (parse (so_buf s1)) as [f r| |] eqn:P.
    + destruct (from_frame f); [done|]. injection RS as <-. by apply (Done HError).
    + destruct (so_wire s1) as [|c cs] eqn:SW.
      * destruct (so_fin s1); [|done]. injection RS as <-. by eapply Done.
      * injection RS as <-. destruct (IHw (length cs)) with (x := x2) (s := Sock cs (so_fin s1) (so_buf s1 ++ c) (so_end s1) (so_out s1)) (k := k1) as (x' & A' & R).
        -- rewrite W, <- W1. cbn. lia.
        -- done.
        -- done.
        -- cbn [so_buf so_wire]. rewrite N, <- B1, <- W1. cbn [concat]. by rewrite app_assoc.
        -- done.
        -- exists x'. split; [|done]. by eapply alone_trans.
    + injection RS as <-. by apply (Done HError).
  - exists x1. split; [done|]. left. by eapply waits_intro.
Qed.
Print Assumptions C113_progress.

(** ** The limit *)
Definition lim_fine (max : N) (x : process) : Prop :=
  (exists les, Limit.lsteps les (Limit.limit_new max) = Some (pr_lim x)) /\ Limit.lm_next (pr_lim x) = N.of_nat (length (pr_socks x)) /\
  forall i, live x i -> In (N.of_nat i) (Limit.lm_handlers (pr_lim x)).
Lemma lsteps_snoc les e x y z : Limit.lsteps les x = Some y -> Limit.lstep e y = Some z -> Limit.lsteps (les ++ [e]) x = Some z.
Proof.
  revert x. induction les as [|l les IH]; intros x; [intros [= ->] E; cbn; by rewrite E|]. cbn. destruct (Limit.lstep l x) as [x1|]; [|done]. apply IH.
Qed.
Lemma pstep_live en ev x x' i : length (cs_conns (ld_cl (pr_ld x))) = length (pr_socks x) -> pstep en ev x = Some x' -> live x' i -> live x i \/ (snd ev = PAccept /\ length (pr_socks x) <= i < length (pr_socks x')).
Proof.
  destruct x as [ld ss lm], ev as [now e]. unfold pstep. cbn [fst snd]. intros LC H (s & k & S & K & O). cbn [pr_ld pr_socks] in LC.
  assert (Ins : forall j (s0 s1 : sock) k0, pr_socks x' = <[j := s1]> ss -> cs_conns (ld_cl (pr_ld x')) = cs_conns (ld_cl ld) ->
    ss !! j = Some s0 -> (over s1 k0 = None -> over s0 k0 = None) -> (cs_conns (ld_cl ld) !! j = Some k0) -> live (Process ld ss lm) i).
  { intros j s0 s1 k0 E1 E2 S0 OV K0. rewrite E1 in S. rewrite E2 in K. destruct (decide (i = j)) as [->|N].
    - rewrite list_lookup_insert in S by (by apply lookup_lt_Some in S0). injection S as <-. rewrite K0 in K. injection K as <-. exists s0, k0. cbn. auto.
    - rewrite list_lookup_insert_ne in S by done. by exists s, k. }
  destruct e as [le| |j c|j|j|j|j|j n|j|u].
  - left. destruct le; try done; destruct (Limit.lstep _ lm); try done; injection H as <-; by exists s, k.
  - destruct (Limit.lstep _ lm) as [lm'|]; [|done]. injection H as <-. cbn [pr_socks pr_ld] in *. destruct ld as [[b0 xs fw ks] q sc nn nt pm pc]. cbn [with_conns ld_cl cs_conns] in *.
    destruct (decide (i < length ss)) as [L|L].
    + left. rewrite lookup_app_l in S by done. rewrite lookup_app_l in K by lia. by exists s, k.
    + right. split; [done|]. rewrite app_length. apply lookup_lt_Some in S. rewrite app_length in S. cbn in *. lia.
  - left. destruct (ss !! j) as [s0|] eqn:S0; [|done]. destruct (so_fin s0 || _); [done|]. injection H as <-. destruct (cs_conns (ld_cl ld) !! j) as [k0|] eqn:K0.
    + by eapply (Ins j s0 _ k0).
    + destruct (decide (i = j)) as [->|N]; [cbn in K; by rewrite K0 in K|]. cbn in S. rewrite list_lookup_insert_ne in S by done. by exists s, k.
  - left. destruct (ss !! j) as [s0|] eqn:S0; [|done]. injection H as <-. destruct (cs_conns (ld_cl ld) !! j) as [k0|] eqn:K0.
    + by eapply (Ins j s0 _ k0).
    + destruct (decide (i = j)) as [->|N]; [cbn in K; by rewrite K0 in K|]. cbn in S. rewrite list_lookup_insert_ne in S by done. by exists s, k.
  - left. destruct (ss !! j) as [s0|] eqn:S0; [|done]. destruct (cs_conns (ld_cl ld) !! j) as [k0|] eqn:K0; [|done]. destruct (so_end s0) eqn:SE; [done|].
    destruct (k_pc k0) eqn:KP; try done. destruct (k_in k0); [|done]. destruct (read_step s0) as [[s1 [q|]]|]; [| |done]; injection H as <-.
    + cbn [pr_socks pr_ld] in *. destruct (decide (i = j)) as [->|N]; [exists s0, k0; do 2 (split; [done|]); unfold over; by rewrite SE, KP|].
      rewrite list_lookup_insert_ne in S by done. destruct ld as [[b0 xs fw ks] q0 sc nn nt pm pc]. cbn [with_conns ld_cl cs_conns] in *. rewrite list_lookup_alter_ne in K by done. by exists s, k.
    + eapply (Ins j s0 _ k0); try done. intros _. unfold over. by rewrite SE, KP.
  - left. destruct (ss !! j) as [s0|] eqn:S0; [|done]. destruct (cs_conns (ld_cl ld) !! j) as [k0|] eqn:K0; [|done]. destruct (so_end s0) eqn:SE; [done|].
    destruct (k_pc k0) eqn:KP; try done. destruct (k_in k0); [|done]. destruct (parse _); try done. injection H as <-. by eapply (Ins j s0 _ k0).
  - left. destruct (ss !! j) as [s0|] eqn:S0; [|done]. destruct (cs_conns (ld_cl ld) !! j) as [k0|] eqn:K0; [|done]. destruct (so_end s0) eqn:SE; [done|].
    destruct (leader_step en (now, LConn j) ld) as [ld'|] eqn:E; [|done]. injection H as <-. cbn [pr_socks pr_ld] in *. destruct (conn_turn _ _ _ _ _ _ E K0) as (k' & CC & _ & NEn).
    destruct (decide (i = j)) as [->|N].
    + exists s0, k0. do 2 (split; [done|]). unfold over. rewrite SE. destruct (k_pc k0) as [| | | | |h] eqn:KP; try done. by destruct (NEn h).
    + rewrite list_lookup_insert_ne in S by done. rewrite CC, list_lookup_insert_ne in K by done. by exists s, k.
  - left. destruct (ss !! j) as [s0|] eqn:S0; [|done]. destruct (cs_conns (ld_cl ld) !! j) as [k0|] eqn:K0; [|done]. destruct (so_end s0) eqn:SE; [done|].
    destruct (k_pc k0) eqn:KP; try done. injection H as <-. by eapply (Ins j s0 _ k0).
  - left. destruct (ss !! j) as [s0|] eqn:S0; [|done]. destruct (cs_conns (ld_cl ld) !! j) as [k0|] eqn:K0; [|done]. destruct (over s0 k0); [|done]. destruct (Limit.lstep _ lm); [|done]. injection H as <-. by exists s, k.
  - left. assert (G : forall ld', leader_step en (now, u) ld = Some ld' -> (forall i, u <> LConn i) -> x' = Process ld' ss lm -> live (Process ld ss lm) i).
    { intros ld' E NC ->. cbn [pr_socks pr_ld] in *. rewrite (leader_step_conns _ _ _ _ E NC) in K. by exists s, k. }
    destruct u; try done; (destruct (leader_step en _ ld) as [ld'|] eqn:E; [|done]); injection H as <-; by eapply G.
Qed.
Lemma lim_fine_step en max ev x x' : length (cs_conns (ld_cl (pr_ld x))) = length (pr_socks x) -> lim_fine max x -> pstep en ev x = Some x' -> lim_fine max x'.
Proof.
  intros LC ((les & L) & NX & A) H. pose proof (fun i => pstep_live en ev x x' i LC H) as LV.
  assert (Same : pr_lim x' = pr_lim x -> length (pr_socks x') = length (pr_socks x) -> lim_fine max x').
  { intros E1 E2. split; [exists les; by rewrite E1|]. rewrite E1, E2. split; [done|]. intros i Hi. destruct (LV i Hi) as [P|[_ P]]; [by apply A|lia]. }
  destruct x as [ld ss lm], ev as [now e]. unfold pstep in H. cbn [fst snd pr_lim pr_socks pr_ld] in *.
  destruct e as [le| |j c|j|j|j|j|j n|j|u].
  - assert (G : forall lm', Limit.lstep le lm = Some lm' -> x' = Process ld ss lm' -> Limit.lm_next lm' = Limit.lm_next lm -> Limit.lm_handlers lm' = Limit.lm_handlers lm -> lim_fine max x').
    { intros lm' E -> E1 E2. cbn [pr_lim pr_socks] in *. split; [exists (les ++ [le]); by eapply lsteps_snoc|]. cbn [pr_lim pr_socks]. rewrite E1, E2. split; [done|].
      intros i Hi. destruct (LV i Hi) as [P|[P _]]; [by apply A|done]. }
    destruct (Limit.lstep le lm) as [lm'|] eqn:E; [|by destruct le].
    destruct le; try done; injection H as <-; (eapply G; [done|done|..]); destruct lm as [p ph hs nx]; cbn in E; destruct ph; try done;
      repeat match type of E with context [if ?c then _ else _] => destruct c end; try done; by injection E as <-.
  - destruct (Limit.lstep _ lm) as [lm'|] eqn:E; [|done]. injection H as <-. cbn [pr_lim pr_socks] in *. split; [exists (les ++ [Limit.LAccepted]); by eapply lsteps_snoc|].
    cbn [pr_lim pr_socks]. destruct lm as [p ph hs nx]. cbn in E. destruct ph; try done. injection E as <-. cbn [Limit.lm_next Limit.lm_handlers] in *. rewrite app_length. cbn [length]. split; [lia|].
    intros i Hi. destruct (LV i Hi) as [P|[_ P]]; [right; by apply A|]. rewrite app_length in P. cbn in P. left. rewrite NX. lia.
  - destruct (ss !! j); [|done]. destruct (so_fin _ || _); [done|]. injection H as <-. apply Same; [done|]. apply insert_length.
  - destruct (ss !! j); [|done]. injection H as <-. apply Same; [done|]. apply insert_length.
  - destruct (ss !! j) as [s0|]; [|done]. destruct (cs_conns (ld_cl ld) !! j) as [k0|]; [|done]. destruct (so_end s0); [done|]. destruct (k_pc k0); try done. destruct (k_in k0); [|done].
    destruct (read_step s0) as [[s1 [q|]]|]; [| |done]; injection H as <-; (apply Same; [done|]; apply insert_length).
  - destruct (ss !! j) as [s0|]; [|done]. destruct (cs_conns (ld_cl ld) !! j) as [k0|]; [|done]. destruct (so_end s0); [done|]. destruct (k_pc k0); try done. destruct (k_in k0); [|done].
    destruct (parse _); try done. injection H as <-. apply Same; [done|]. apply insert_length.
  - destruct (ss !! j) as [s0|]; [|done]. destruct (cs_conns (ld_cl ld) !! j) as [k0|]; [|done]. destruct (so_end s0); [done|]. destruct (leader_step _ _ _); [|done]. injection H as <-. apply Same; [done|]. apply insert_length.
  - destruct (ss !! j) as [s0|]; [|done]. destruct (cs_conns (ld_cl ld) !! j) as [k0|]; [|done]. destruct (so_end s0); [done|]. destruct (k_pc k0); try done. injection H as <-. apply Same; [done|]. apply insert_length.
  - destruct (ss !! j) as [s0|] eqn:S0; [|done]. destruct (cs_conns (ld_cl ld) !! j) as [k0|] eqn:K0; [|done]. destruct (over s0 k0) as [h|] eqn:OV; [|done].
    destruct (Limit.lstep (Limit.HEnd (N.of_nat j) (ending_of h)) lm) as [lm'|] eqn:E; [|done]. injection H as <-. cbn [pr_lim pr_socks] in *. split; [eexists; by eapply lsteps_snoc|].
    cbn [pr_lim pr_socks]. destruct lm as [p ph hs nx]. cbn [Limit.lstep] in E. destruct (existsb _ hs); [|by destruct ph].
    assert (lm' = Limit.Limits (p + 1) ph (List.filter (fun x => negb (N.eqb (N.of_nat j) x)) hs) nx) as -> by (destruct ph; by injection E as <-). cbn [Limit.lm_next Limit.lm_handlers] in *. split; [done|].
    intros i Hi. apply filter_In. destruct (LV i Hi) as [P|[P _]]; [|done]. split; [by apply A|]. destruct (N.eqb_spec (N.of_nat j) (N.of_nat i)) as [Q|Q]; [|done].
    apply Nat2N.inj in Q as ->. destruct P as (s & k & P1 & P2 & P3). cbn in P1, P2. rewrite S0 in P1. rewrite K0 in P2. injection P1 as <-. injection P2 as <-. by rewrite OV in P3.
  - destruct u; try done; (destruct (leader_step _ _ _); [|done]); injection H as <-; by apply Same.
Qed.
Lemma lim_fine_steps en b max evs x : psteps en evs (pr_start b max) = Some x -> lim_fine max x.
Proof.
  revert x. induction evs as [|ev evs IH] using rev_ind; intros x H.
  - injection H as <-. split; [by exists []|]. split; [done|]. intros i (s & k & S & _). cbn in S; by rewrite lookup_nil in S.
  - rewrite psteps_app in H. destruct (psteps en evs (pr_start b max)) as [y|] eqn:Y; [|done]. cbn [psteps] in H. destruct (pstep en ev y) as [z|] eqn:E; [|done]. injection H as <-.
    destruct (pr_fine_steps _ _ _ _ _ Y) as (ins & _ & _ & LC & _). eapply lim_fine_step; [done|by apply IH|done].
Qed.
(** However connections come and go, and whatever they end with: no more than [max] handlers are at work. *)
Theorem C113_limit en b max evs x is_ : psteps en evs (pr_start b max) = Some x -> List.NoDup is_ -> (forall i, In i is_ -> live x i) -> (N.of_nat (length is_) <= max)%N.
Proof.
  intros H ND A. destruct (lim_fine_steps _ _ _ _ _ H) as ((les & L) & _ & I). pose proof (PropLocks.C62_limit _ _ _ L) as B.
  assert (LE : length (map N.of_nat is_) <= length (Limit.lm_handlers (pr_lim x))).
  { apply NoDup_incl_length; [apply FinFun.Injective_map_NoDup; [intros a c; apply Nat2N.inj|done]|]. intros n Hn. apply in_map_iff in Hn as (i & <- & Hi). by apply I, A. }
  rewrite map_length in LE. unfold SpecLocks.handlers_alive in B. lia.
Qed.
Print Assumptions C113_limit.

(** ** A concrete case *)
(** One connection is allowed. The first client sends a SET in two pieces and the beginning of a GET, and is cut off by the network in the
    middle of a reply; the next one is accepted after that, reads what the first one has stored, sends rubbish and is disconnected. *)
Definition c113_set : bytes := write (FArray [FBulk (bs "set"); FBulk (bs "k"); FBulk (bs "v")]).
Definition c113_get : bytes := write (FArray [FBulk (bs "get"); FBulk (bs "k")]).
Definition c113_evs : list (N * pevent) :=
  [(1%N, PListen Limit.LAcquire); (1%N, PAccept); (2%N, PArrive 0 (firstn 7 c113_set)); (2%N, PRead 0); (3%N, PArrive 0 (skipn 7 c113_set ++ c113_get)); (3%N, PRead 0); (3%N, PRead 0)] ++
  repeat (4%N, PConn 0) 6 ++ [(5%N, PRead 0)] ++ repeat (5%N, PConn 0) 4 ++ [(6%N, PBreak 0 2); (6%N, PDrop 0); (6%N, PListen Limit.LAcquire); (6%N, PAccept);
  (7%N, PArrive 1 (c113_get ++ bs "?")); (7%N, PRead 1); (7%N, PRead 1)] ++ repeat (8%N, PConn 1) 5 ++ [(9%N, PRead 1)].
Example C113_bytes_case :
  StronglySorted N.le (map fst c113_evs) /\
  (forall i f q, In f (fst (conn_requests (arrived i c113_evs))) -> from_frame f = Some q -> separable q) /\
  option_map (fun x => map (fun s => (so_out s, so_end s, so_buf s)) (pr_socks x)) (psteps ex_env c113_evs (pr_start db_empty 1)) =
    Some [(write frame_ok ++ bs "$1", Some HError, []); (write (FBulk (bs "v")), Some HError, bs "?")] /\
  psteps ex_env (firstn 19 c113_evs ++ [(6%N, PListen Limit.LAcquire)]) (pr_start db_empty 1) = None.
Proof.
  split; [vm_compute; repeat (constructor; [|repeat (constructor; [discriminate|]); constructor]); constructor|]. split; [|split; by vm_compute].
  intros [|[|i]] f q.
  - intros H. vm_compute in H. destruct H as [<-|[<-|[]]]; intros E; vm_compute in E; injection E as <-; by repeat constructor.
  - intros H. vm_compute in H. destruct H as [<-|[]]; intros E; vm_compute in E; injection E as <-; by repeat constructor.
  - intros H. by vm_compute in H.
Qed.
Example C113_progress_case : exists x, psteps ex_env (firstn 10 c113_evs) (pr_start db_empty 1) = Some x /\ 0 < length (pr_socks x).
Proof.
  assert (H : option_map (fun x => length (pr_socks x)) (psteps ex_env (firstn 10 c113_evs) (pr_start db_empty 1)) = Some 1) by by vm_compute.
  destruct (psteps _ _ _) as [x|]; [|done]. exists x. split; [done|]. injection H as ->. lia.
Qed.
Example C113_limit_case : exists x, psteps ex_env (firstn 10 c113_evs) (pr_start db_empty 1) = Some x /\ live x 0.
Proof.
  assert (H : option_map (fun x => option_map so_end (pr_socks x !! 0)) (psteps ex_env (firstn 10 c113_evs) (pr_start db_empty 1)) = Some (Some None) /\
    option_map (fun x => option_map (fun k => match k_pc k with KEnd _ => false | _ => true end) (cs_conns (ld_cl (pr_ld x)) !! 0)) (psteps ex_env (firstn 10 c113_evs) (pr_start db_empty 1)) = Some (Some true))
    by (split; by vm_compute).
  destruct (psteps _ _ _) as [x|]; [|by destruct H]. exists x. split; [done|]. destruct H as [H1 H2]. cbn in H1, H2. unfold live. destruct (pr_socks x !! 0) as [s|]; [|done].
  destruct (cs_conns (ld_cl (pr_ld x)) !! 0) as [k|]; [|done]. exists s, k. do 2 (split; [done|]). cbn in H1, H2. unfold over. injection H1 as ->. by destruct (k_pc k).
Qed.
