(** Executions of a whole server with any clock as executions of its connections with one more client; write numbers do not matter. *)
From Verif Require Export SpecAnytime.
From Verif Require Import LeaderFacts ExpireFacts ClientsFacts FlushFacts DbFacts CmdFacts ServerFacts DictFacts.

(** ** Equal up to write numbers and to what is in the channels *)
Definition db_alike (b b' : db) : Prop := forall k, db_raw b k = db_raw b' k.
Inductive pc_alike : kpc -> kpc -> Prop :=
  | pa_send q cs rs es es' fs fs' o : length es = length es' -> length fs = length fs' ->
      pc_alike (KSend q cs rs es fs o) (KSend q cs rs es' fs' o)
  | pa_same p : pc_alike p p.
Definition alike (k k' : client) : Prop := k_in k = k_in k' /\ k_out k = k_out k' /\ pc_alike (k_pc k) (k_pc k').
Lemma alike_refl k : alike k k.
Proof. split; [done|]. split; [done|]. apply pa_same. Qed.

Lemma exec_alike ho now c b b' : db_alike b b' ->
  db_alike (fst (db_exec ho now c b)) (fst (db_exec ho now c b')) /\
  wo_res (snd (db_exec ho now c b)) = wo_res (snd (db_exec ho now c b')) /\
  length (wo_exp (snd (db_exec ho now c b))) = length (wo_exp (snd (db_exec ho now c b'))) /\
  length (wo_fwd (snd (db_exec ho now c b))) = length (wo_fwd (snd (db_exec ho now c b'))).
Proof.
  intros A.
  assert (OTH : db_raw (fst (db_exec ho now c b)) (ckey c) = db_raw (fst (db_exec ho now c b')) (ckey c) ->
    db_alike (fst (db_exec ho now c b)) (fst (db_exec ho now c b'))).
  { intros E k. destruct (decide (k = ckey c)) as [->|N]; [done|]. destruct (db_exec_cmd ho now c b) as [-> _], (db_exec_cmd ho now c b') as [-> _].
    rewrite !db_cmd_other by done. apply A. }
  pose proof (A (ckey c)) as AK. unfold db_raw in AK.
  destruct c as [w|r]; cbn [db_exec ckey] in *.
  - destruct (db_write_unfold now w b) as [E1 E2], (db_write_unfold now w b') as [E1' E2'].
    destruct (db_write now w b) as [b1 o1], (db_write now w b') as [b2 o2]. cbn [fst snd] in *.
    assert (L : wres_agree (wkey w) (wapply now w (snd (next_id (b (get_slot (wkey w)))))) (wapply now w (snd (next_id (b' (get_slot (wkey w))))))) by (by apply wapply_local).
    assert (Q : inner (fst (slot_write (get_slot (wkey w)) now w (b (get_slot (wkey w))))) !! wkey w = inner (fst (slot_write (get_slot (wkey w)) now w (b' (get_slot (wkey w))))) !! wkey w).
    { rewrite !slot_write_fst. apply L. }
    assert (R : wo_res o1 = wo_res o2 /\ length (wo_exp o1) = length (wo_exp o2) /\ length (wo_fwd o1) = length (wo_fwd o2)).
    { subst o1 o2. unfold slot_write. destruct L as (L1 & L2 & _). cbn [next_id snd] in *.
      destruct (wapply now w _) as [[d1 r1] u1], (wapply now w _) as [[d2 r2] u2]. cbn [fst snd] in L1, L2. subst r2 u2. by destruct r1. }
    split; [|done]. apply OTH. subst b1 b2. unfold db_raw. by rewrite !db_set_same.
  - pose proof (rapply_local ho now r _ _ AK) as [R1 R2]. unfold db_read, slot_read in *.
    destruct (rapply ho now r (b (get_slot (rkey r)))) as [d1 r1], (rapply ho now r (b' (get_slot (rkey r)))) as [d2 r2]. cbn [fst snd] in *. subst r2.
    split; [|done]. apply OTH. unfold db_raw. by rewrite !db_set_same.
Qed.
Lemma flush_alike s b b' : db_alike b b' -> db_alike (db_set s (slot_flush (b s)) b) (db_set s (slot_flush (b' s)) b').
Proof. intros A k. unfold db_raw, db_set. destruct (N.eqb (get_slot k) s); [done|]. apply A. Qed.

Lemma conn_step_alike en now k b xs fw k1 b1 xs1 fw1 k' b' xs' fw' : conn_step en now k b xs fw = Some (k1, b1, xs1, fw1) ->
  alike k k' -> db_alike b b' ->
  exists k2 b2 xs2 fw2, conn_step en now k' b' xs' fw' = Some (k2, b2, xs2, fw2) /\ alike k1 k2 /\ db_alike b1 b2.
Proof.
  intros H (I & O & P) A. destruct k as [ins pc out], k' as [ins' pc' out']. cbn [k_in k_out k_pc] in *. subst ins' out'.
  destruct P as [q cs rs es es' fs fs' o LE LF|pc].
  - cbn [conn_step] in *. destruct es as [|m es], es' as [|m' es']; try done.
    + destruct fs as [|f fs], fs' as [|f' fs']; try done.
      * injection H as <- <- <- <-. do 4 eexists. split; [reflexivity|]. split; [apply alike_refl|done].
      * injection H as <- <- <- <-. do 4 eexists. split; [reflexivity|]. split; [|done]. split; [done|]. split; [done|]. constructor; [done|]. by injection LF.
    + injection H as <- <- <- <-. do 4 eexists. split; [reflexivity|]. split; [|done]. split; [done|]. split; [done|]. constructor; [|done]. by injection LE.
  - destruct pc as [|q [|c cs] rs|q cs rs [|m es] [|f fs] o|[|s ss]|f|h]; cbn [conn_step] in *; try done.
    all: try (by injection H as <- <- <- <-; do 4 eexists; split; [reflexivity|]; split; [apply alike_refl|]).
    + destruct ins as [|q ins]; [done|].
      destruct q; try (by injection H as <- <- <- <-; do 4 eexists; split; [reflexivity|]; split; [apply alike_refl|]).
      all: destruct (plan_of now _) as [[cs|]|x|]; injection H as <- <- <- <-; do 4 eexists; (split; [reflexivity|]; split; [apply alike_refl|done]).
    + destruct (exec_alike (e_ho en) now c b b' A) as (A1 & A2 & A3 & A4).
      destruct (db_exec (e_ho en) now c b) as [d o], (db_exec (e_ho en) now c b') as [d' o']. cbn [fst snd] in *.
      injection H as <- <- <- <-. do 4 eexists. split; [reflexivity|]. split; [|done]. split; [done|]. split; [done|]. cbn [k_pc]. rewrite <- A2. by constructor.
    + injection H as <- <- <- <-. do 4 eexists. split; [reflexivity|]. split; [apply alike_refl|]. by apply flush_alike.
Qed.

(** ** The extra client *)
Lemma del_round en t k b xs fw ks rest out v : db_raw b k = Some v -> (0 < v_exp v)%N -> exists xs' fw' out',
  csteps en (repeat (length ks, t) 7) (Clients b xs fw (ks ++ [Client (QDel [k] :: rest) KIdle out])) =
  Some (Clients (fst (db_write t (WDel k) b)) xs' fw' (ks ++ [Client rest KIdle out'])).
Proof.
  intros R P.
  assert (L : forall c, (ks ++ [c]) !! length ks = Some c) by (intros c; rewrite lookup_app_r by lia; by rewrite Nat.sub_diag).
  assert (I : forall c c', <[length ks := c']> (ks ++ [c]) = ks ++ [c']) by (intros c c'; rewrite insert_app_r_alt by lia; by rewrite Nat.sub_diag).
  assert (W : exists d' m f, db_write t (WDel k) b = (d', WOut (OOk (POptValue (Some v))) [m] [f])).
  { unfold db_write, slot_write. cbn [wkey next_id wapply]. unfold del_apply, dict_remove. cbn [inner].
    unfold db_raw in R. rewrite R. rewrite (proj2 (N.ltb_lt _ _) P). cbn. replace (v_exp v =? 0)%N with false by lia. do 3 eexists. reflexivity. }
  destruct W as (d' & m & f & W).
  do 3 eexists. cbn [repeat csteps].
  unfold cstep at 1. cbn [fst snd cs_conns]. rewrite L. cbn [conn_step plan_of map cs_db cs_exp cs_fwd]. rewrite I.
  unfold cstep at 1. cbn [fst snd cs_conns]. rewrite L. cbn [conn_step cs_db cs_exp cs_fwd db_exec]. rewrite W. cbn [wo_exp wo_fwd wo_res fst]. rewrite I.
  unfold cstep at 1. cbn [fst snd cs_conns]. rewrite L. cbn [conn_step cs_db cs_exp cs_fwd]. rewrite I.
  unfold cstep at 1. cbn [fst snd cs_conns]. rewrite L. cbn [conn_step cs_db cs_exp cs_fwd]. rewrite I.
  unfold cstep at 1. cbn [fst snd cs_conns]. rewrite L. cbn [conn_step cs_db cs_exp cs_fwd]. rewrite I.
  unfold cstep at 1. cbn [fst snd cs_conns]. rewrite L. cbn [conn_step cs_db cs_exp cs_fwd answer app]. rewrite I.
  unfold cstep at 1. cbn [fst snd cs_conns]. rewrite L. cbn [conn_step cs_db cs_exp cs_fwd]. rewrite I. reflexivity.
Qed.
Definition related (x : leader) (qs : list request) (y : clients) : Prop :=
  db_alike (cs_db (ld_cl x)) (cs_db y) /\ exists ks out, cs_conns y = ks ++ [Client qs KIdle out] /\ Forall2 alike (cs_conns (ld_cl x)) ks.

Lemma related_step en i t cl cl' q sc n nt pm pc q' sc' n' nt' pm' pc' y qs : cstep en (i, t) cl = Some cl' -> related (Leader cl q sc n nt pm pc) qs y ->
  exists y', cstep en (i, t) y = Some y' /\ related (Leader cl' q' sc' n' nt' pm' pc') qs y'.
Proof.
  intros H (A & ks & out & E & F). unfold cstep in *. cbn [fst snd ld_cl] in *. destruct (cs_conns cl !! i) as [k|] eqn:K; [|done].
  destruct (conn_step en t k (cs_db cl) (cs_exp cl) (cs_fwd cl)) as [[[[k1 b1] xs1] fw1]|] eqn:C; [|done]. injection H as <-.
  destruct (Forall2_lookup_l _ _ _ _ _ F K) as (k' & K' & AK).
  rewrite E, (lookup_app_l_Some _ _ _ _ K').
  destruct (conn_step_alike _ _ _ _ _ _ _ _ _ _ k' (cs_db y) (cs_exp y) (cs_fwd y) C AK A) as (k2 & b2 & xs2 & fw2 & C2 & A2 & B2). rewrite C2.
  eexists. split; [reflexivity|]. split; [done|]. cbn [cs_conns ld_cl]. exists (<[i:=k2]> ks), out.
  rewrite insert_app_l by (by apply lookup_lt_Some in K'). split; [done|]. by apply Forall2_insert.
Qed.
Lemma step_any en t u x x' T : leader_step en (t, u) x = Some x' -> leader_fine T x -> (t <= T)%N ->
  leader_fine T x' /\ length (cs_conns (ld_cl x')) = length (cs_conns (ld_cl x)) /\
  exists vis evs, Forall asks_in_background vis /\ all_but (length (cs_conns (ld_cl x))) evs = conn_turns [(t, u)] /\
    forall y rest, related x (vis ++ rest) y -> exists y', csteps en evs y = Some y' /\ related x' rest y'.
Proof.
  intros H F LT.
  assert (QUIET : cs_db (ld_cl x') = cs_db (ld_cl x) -> cs_conns (ld_cl x') = cs_conns (ld_cl x) -> conn_turns [(t, u)] = [] ->
    length (cs_conns (ld_cl x')) = length (cs_conns (ld_cl x)) /\
    exists vis evs, Forall asks_in_background vis /\ all_but (length (cs_conns (ld_cl x))) evs = conn_turns [(t, u)] /\
      forall y rest, related x (vis ++ rest) y -> exists y', csteps en evs y = Some y' /\ related x' rest y').
  { intros DB CO CT. split; [by rewrite CO|]. exists [], []. split; [constructor|]. split; [done|]. intros y rest R. exists y. split; [done|].
    unfold related in *. by rewrite DB, CO. }
  assert (VISIT : forall k, db_alike (cs_db (ld_cl x')) (fst (db_read (e_ho en) t (RGet k) (cs_db (ld_cl x)))) -> cs_conns (ld_cl x') = cs_conns (ld_cl x) ->
    conn_turns [(t, u)] = [] ->
    length (cs_conns (ld_cl x')) = length (cs_conns (ld_cl x)) /\
    exists vis evs, Forall asks_in_background vis /\ all_but (length (cs_conns (ld_cl x))) evs = conn_turns [(t, u)] /\
      forall y rest, related x (vis ++ rest) y -> exists y', csteps en evs y = Some y' /\ related x' rest y').
  { intros k DB CO CT. split; [by rewrite CO|]. exists [QGet k], (repeat (length (cs_conns (ld_cl x)), t) 5).
    split; [constructor; [left; by exists k|constructor]|]. split; [rewrite CT; cbn [repeat all_but List.filter fst]; by rewrite Nat.eqb_refl|].
    intros [b xs fw ks0] rest (A & ks & out & E & F2). cbn [cs_conns cs_db] in *. subst ks0. rewrite (Forall2_length _ _ _ F2). cbn [app].
    destruct (get_round en t k b xs fw ks rest out) as [f EG]. rewrite EG. eexists. split; [reflexivity|]. split; [|cbn; rewrite CO; by eexists _, _].
    cbn [cs_db]. intros j. rewrite DB. pose proof (exec_alike (e_ho en) t (CRead (RGet k)) _ _ A) as [G _]. cbn [db_exec] in G. specialize (G j).
    destruct (db_read (e_ho en) t (RGet k) (cs_db (ld_cl x))) as [? ?], (db_read (e_ho en) t (RGet k) b) as [? ?]. exact G. }
  assert (REMOVE : forall k v, db_raw (cs_db (ld_cl x)) k = Some v -> (0 < v_exp v)%N ->
    db_alike (cs_db (ld_cl x')) (fst (db_write t (WDel k) (cs_db (ld_cl x)))) -> cs_conns (ld_cl x') = cs_conns (ld_cl x) ->
    conn_turns [(t, u)] = [] ->
    length (cs_conns (ld_cl x')) = length (cs_conns (ld_cl x)) /\
    exists vis evs, Forall asks_in_background vis /\ all_but (length (cs_conns (ld_cl x))) evs = conn_turns [(t, u)] /\
      forall y rest, related x (vis ++ rest) y -> exists y', csteps en evs y = Some y' /\ related x' rest y').
  { intros k v R P DB CO CT. split; [by rewrite CO|]. exists [QDel [k]], (repeat (length (cs_conns (ld_cl x)), t) 7).
    split; [constructor; [right; by exists k|constructor]|]. split; [rewrite CT; cbn [repeat all_but List.filter fst]; by rewrite Nat.eqb_refl|].
    intros [b xs fw ks0] rest (A & ks & out & E & F2). cbn [cs_conns cs_db] in *. subst ks0. rewrite (Forall2_length _ _ _ F2). cbn [app].
    rewrite A in R. destruct (del_round en t k b xs fw ks rest out v R P) as (xs' & fw' & out' & EG). rewrite EG. eexists. split; [reflexivity|].
    split; [|cbn; rewrite CO; by eexists _, _].
    cbn [cs_db]. intros j. rewrite DB. by pose proof (exec_alike (e_ho en) t (CWrite (WDel k)) _ _ A) as [G _]. }
  destruct x as [cl q sc n nt pm pc]. destruct F as [CH CO QU SC PU]. unfold leader_step in H. cbn [ld_cl ld_queue ld_scan ld_purge snd fst] in *.
  destruct u as [i| | | | | | |]; cbn [turn_event] in H.
  - destruct (cstep en (i, t) cl) as [cl'|] eqn:E; [|done]. injection H as <-. cbn [ld_cl].
    assert (IN : (i < length (cs_conns cl))%nat) by (unfold cstep in E; cbn [fst] in E; destruct (cs_conns cl !! i) eqn:K; [by apply lookup_lt_Some in K|done]).
    split; [|split].
    + unfold cstep in E. cbn [fst snd] in E. destruct (cs_conns cl !! i) as [k|] eqn:K; [|done].
      destruct (conn_step en t k (cs_db cl) (cs_exp cl) (cs_fwd cl)) as [[[[k' b] xs] fw]|] eqn:C; [|done]. injection E as <-.
      assert (SK : sends_fine k) by (rewrite list.Forall_forall in CO; apply CO; by eapply elem_of_list_lookup_2).
      destruct (conn_step_fine _ _ _ _ _ _ _ _ _ _ C SK CH) as [S' X']. split; cbn; try done. by apply Forall_insert.
    + unfold cstep in E. cbn [fst snd] in E. destruct (cs_conns cl !! i) as [k|] eqn:K; [|done].
      destruct (conn_step en t k (cs_db cl) (cs_exp cl) (cs_fwd cl)) as [[[[k' b] xs] fw]|] eqn:C; [|done]. injection E as <-. cbn. by rewrite insert_length.
    + exists [], [(i, t)]. split; [constructor|]. split.
      { cbn. replace (Nat.eqb i (length (cs_conns cl))) with false; [done|]. symmetry. apply Nat.eqb_neq. lia. }
      intros y rest R. cbn [csteps map app] in *. destruct (related_step _ _ _ _ _ _ _ _ _ _ _ q sc (asks_scan (cs_conns cl !! i) + n)%nat nt pm pc _ _ E R) as (y' & Y & R'). rewrite Y. by exists y'.
  - destruct cl as [b xs fw ks]. cbn [task_step step] in H. destruct n as [|n]; [done|]. cbn [repeat nth_error] in H.
    destruct sc as [es|]; [done|]. cbn in H. injection H as <-. split; [by split|]. by apply QUIET.
  - destruct cl as [b xs fw ks]. cbn [task_step step] in H. destruct sc as [[|e es]|]; [| |done].
    + injection H as <-. split; [by split|]. by apply QUIET.
    + inversion SC as [|? ? E1 E2]; subst. pose proof (scan_get t e b E1 (e_ho en)) as G. destruct (scan_entry t e (b (en_slot e))) as [d' keep].
      injection H as <-. cbn [fst] in G. split; [split; cbn; try done; destruct keep; [done|by apply q_remove_fine]|].
      apply (VISIT (en_key e)); try done. intros j. cbn [ld_cl cs_db]. by rewrite G.
  - destruct cl as [b xs fw ks]. cbn [task_step step] in H. destruct sc as [es|]; [done|]. destruct nt; [done|]. destruct xs as [|m xs]; [done|].
    cbn [cs_exp] in CH. inversion CH as [|? ? M1 M2]; subst. pose proof (recv_fine m q M1 QU) as R. destruct (recv m q) as [q' note].
    injection H as <-. split; [by split|]. by apply QUIET.
  - destruct cl as [b xs fw ks]. cbn [task_step step] in H. destruct nt; [|done]. injection H as <-. split; [by split|]. by apply QUIET.
  - destruct cl as [b xs fw ks]. cbn [task_step step purge_step] in H. destruct pc as [|now|now e|next| |w].
    + injection H as <-. split; [split; cbn; try done; lia|]. by apply QUIET.
    + destruct sc as [es|]; [done|]. destruct q as [|e q].
      * injection H as <-. split; [by split|]. by apply QUIET.
      * destruct (now <? en_at e)%N eqn:N; injection H as <-.
        -- split; [by split|]. by apply QUIET.
        -- inversion QU as [|? ? Q1 Q2]; subst. split; [split; cbn [ld_cl ld_queue ld_scan ld_purge cs_exp cs_conns]; try done; [by apply q_remove_fine|cbn in PU |- *; split; [done|lia]]|].
           by apply QUIET.
    + injection H as <-. destruct PU as [[E0 E1] E2]. split; [split; cbn; try done; lia|]. cbn [ld_cl cs_db cs_conns] in *.
      assert (RD : fst (db_read (e_ho en) t (RGet (en_key e)) b) = db_set (en_slot e) (fst (dict_get t (en_key e) (b (en_slot e)))) b).
      { unfold db_read, slot_read. cbn [rkey rapply]. unfold get_apply. rewrite E0. by destruct (dict_get t (en_key e) (b (get_slot (en_key e)))) as [? ?]. }
      assert (PE : (exists v, inner (b (en_slot e)) !! en_key e = Some v /\ (0 < v_exp v)%N /\
          inner (purge_entry t e (b (en_slot e))) = delete (en_key e) (inner (b (en_slot e)))) \/
        purge_entry t e (b (en_slot e)) = fst (dict_get t (en_key e) (b (en_slot e)))).
      { unfold purge_entry. destruct (dict_get_case t (en_key e) (b (en_slot e))) as [v E A V|V]; [|by right].
        cbn [v_exp touch]. destruct (v_exp v =? en_at e)%N eqn:EQ; [|by right]. left. exists v. split; [done|]. split; [apply N.eqb_eq in EQ; lia|].
        cbn. apply delete_insert_delete. }
      destruct PE as [(v & E & P & PE)|PE].
      * apply (REMOVE (en_key e) v); try done; [unfold db_raw; by rewrite <- E0|].
        intros j. unfold db_write, slot_write. cbn [wkey next_id wapply]. unfold del_apply, dict_remove. cbn [inner]. rewrite E0 in *. rewrite E.
        cbn [fst snd outcome_map]. unfold db_raw, db_set. cbn [fst]. destruct (N.eqb_spec (get_slot j) (get_slot (en_key e))) as [S|S]; [|done]. cbn [inner].
        by rewrite PE.
      * apply (VISIT (en_key e)); try done. by rewrite RD, PE.
    + destruct (next =? 0)%N; [|destruct (t <? next)%N]; injection H as <-; (split; [by split|]); by apply QUIET.
    + destruct pm; [|done]. injection H as <-. split; [by split|]. by apply QUIET.
    + destruct pm; [|done]. injection H as <-. split; [by split|]. by apply QUIET.
  - destruct cl as [b xs fw ks]. cbn [task_step step] in H. destruct pc; try done. injection H as <-. split; [by split|]. by apply QUIET.
  - destruct cl as [b xs fw ks]. cbn [cs_fwd cs_db cs_exp cs_conns] in *. destruct fw as [|m fw]; [done|]. injection H as <-. split; [by split|]. by apply QUIET.
Qed.
Lemma steps_any en evs T : forall x x', leader_steps en evs x = Some x' -> leader_fine T x -> Forall (fun t => (t <= T)%N) (map fst evs) ->
  length (cs_conns (ld_cl x')) = length (cs_conns (ld_cl x)) /\
  exists vis evs', Forall asks_in_background vis /\ all_but (length (cs_conns (ld_cl x))) evs' = conn_turns evs /\
    forall y rest, related x (vis ++ rest) y -> exists y', csteps en evs' y = Some y' /\ related x' rest y'.
Proof.
  induction evs as [|[t u] evs IH]; intros x x' H F B.
  - injection H as <-. split; [done|]. exists [], []. split; [constructor|]. split; [done|]. intros y rest R. by exists y.
  - cbn [leader_steps] in H. destruct (leader_step en (t, u) x) as [z|] eqn:E; [|done]. cbn [map fst] in B. inversion B as [|? ? B1 B2]; subst.
    destruct (step_any en t u x z T E F B1) as (F' & L' & vis1 & evs1 & V1 & A1 & C1).
    destruct (IH z x' H F' B2) as (L & vis2 & evs2 & V2 & A2 & C2). split; [by rewrite L, L'|].
    exists (vis1 ++ vis2), (evs1 ++ evs2). split; [by apply List.Forall_app|]. split.
    + unfold all_but in *. rewrite List.filter_app, A1. rewrite L' in A2. rewrite A2. cbn [conn_turns flat_map fst snd app]. by rewrite app_nil_r.
    + intros y rest R. rewrite <- app_assoc in R. destruct (C1 y _ R) as (y1 & Y1 & R1). destruct (C2 y1 _ R1) as (y2 & Y2 & R2).
      exists y2. split; [by rewrite csteps_app, Y1|done].
Qed.
(** The greatest reading. *)
Lemma some_bound (l : list N) : exists T, Forall (fun t => (t <= T)%N) l.
Proof.
  induction l as [|t l [T IH]]; [by exists 0%N|]. exists (N.max t T). constructor; [lia|]. eapply List.Forall_impl; [|exact IH]. cbn. lia.
Qed.
Lemma server_any en b ins evs x : leader_steps en evs (leader_start b ins) = Some x ->
  exists asks evs' y, Forall asks_in_background asks /\ csteps en evs' (cs_start b (ins ++ [asks])) = Some y /\
    all_but (length ins) evs' = conn_turns evs /\ related x [] y.
Proof.
  intros H. destruct (some_bound (map fst evs)) as [T B].
  destruct (steps_any en evs T _ _ H (leader_fine_later 0 T _ ltac:(lia) (leader_fine_start b ins)) B) as (_ & vis & evs' & V & A & C).
  cbn [leader_start ld_cl cs_start cs_conns] in A. rewrite map_length in A.
  destruct (C (cs_start b (ins ++ [vis])) []) as (y & Y & R).
  { rewrite app_nil_r. split; [done|]. exists (map (fun l => Client l KIdle []) ins), []. cbn [leader_start ld_cl cs_start cs_conns]. rewrite map_app. split; [done|].
    apply Forall2_same_length_lookup_2; [done|]. intros i k k' K K'. rewrite K in K'. injection K' as <-. apply alike_refl. }
  by exists vis, evs', y.
Qed.
