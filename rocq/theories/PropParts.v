(** C75 and C107 for requests about several keys: they are the requests for the single keys, one after the other. *)
From Verif Require Import SpecParts ClientsFacts PropClients WireFacts PropTalk PropFrame.

(** ** Replies *)
Lemma merged_app qs ps rs qs' ps' rs' : merged qs ps rs -> merged qs' ps' rs' -> merged (qs ++ qs') (ps ++ ps') (rs ++ rs').
Proof.
  intros H H'. induction H; cbn [app]; [done|by constructor|]. rewrite <- app_assoc. by constructor.
Qed.
Definition hit (r : resp) : Z := count_hits [r].
Lemma hits_total rs : (Z.of_nat (length rs) < 2 ^ 63)%Z -> count_hits rs = sum_of (map hit rs).
Proof.
  induction rs as [|r rs IH]; intros L; [done|]. cbn [length] in L. cbn [map sum_of fold_right]. change (fold_right Z.add 0%Z (map hit rs)) with (sum_of (map hit rs)).
  rewrite <- IH by lia.
  assert (H : count_hits (r :: rs) = fold_left (fun n r => match r with POptValue (Some _) | PBool true => wrap_i64 (n + 1) | _ => n end) rs (hit r)) by done.
  rewrite H. destruct (count_from [r] 0%Z) as [_ B]; [lia|cbn; lia|]. cbn [length] in B. fold (hit r) in B.
  by destruct (count_from rs (hit r)) as [-> _]; [lia|lia|].
Qed.

(** ** One connection *)
Lemma mirror en now ins pc out b xs fw ins2 pc2 out2 b2 xs2 fw2 : pc <> KIdle ->
  conn_step en now (Client ins pc out) b xs fw = Some (Client ins2 pc2 out2, b2, xs2, fw2) ->
  ins2 = ins /\ exists o, out2 = out ++ o /\ (o = [] \/ exists f, pc = KWrite f /\ pc2 = KIdle /\ o = [f]) /\
    forall ins' out', conn_step en now (Client ins' pc out') b xs fw = Some (Client ins' pc2 (out' ++ o), b2, xs2, fw2).
Proof.
  intros NI H. destruct pc as [|q [|c cs] rs|q cs rs [|m es] [|f fs] o|[|s ss]|f|h]; cbn [conn_step] in H |- *; try done.
  all: try (destruct (db_exec _ _ _ _)).
  all: injection H; intros; subst; split; [done|].
  all: try (exists []; rewrite app_nil_r; (split; [done|]); (split; [by left|]); intros; by rewrite app_nil_r).
  exists [f]. split; [done|]. split; [right; by exists f|done].
Qed.

(** The requests with several keys. *)
Definition many (mk : list bytes -> request) (c : bytes -> cmd) : Prop :=
  (mk = QDel /\ c = fun k => CWrite (WDel k)) \/ (mk = QExists /\ c = fun k => CRead (RExists k)).
Lemma many_plan mk c t ks : many mk c -> plan_of t (mk ks) = AOk (PCmds (map c ks)).
Proof. by intros [[-> ->]|[-> ->]]. Qed.
Lemma many_parts mk c ks : many mk c -> ks <> [] -> parts (mk ks) = map (fun k => mk [k]) ks.
Proof. intros [[-> ->]|[-> ->]] N; by destruct ks. Qed.
Lemma many_answer mk c en t ks rs : many mk c -> answer en t (mk ks) rs = AOk (FInteger (count_hits rs)).
Proof. by intros [[-> ->]|[-> ->]]. Qed.
Lemma many_keyed mk c : many mk c -> keyed c.
Proof. intros [[-> ->]|[-> ->]]; [by left|by right]. Qed.
Lemma many_ok mk c ho now k b : many mk c -> exists r, wo_res (snd (db_exec ho now (c k) b)) = OOk r.
Proof.
  intros M. destruct (db_exec_cmd ho now (c k) b) as [_ E]. destruct (keyed_ok c ho now k b (many_keyed _ _ M)) as [r R]. exists r.
  rewrite <- R. exact E.
Qed.
Lemma parts_cases q : parts q = [q] \/ exists mk c k ks, many mk c /\ q = mk (k :: ks).
Proof. destruct q; try (by left); destruct ks as [|k ks]; try (by left); right; [exists QDel, (fun k => CWrite (WDel k)), k, ks|exists QExists, (fun k => CRead (RExists k)), k, ks]; (split; [|done]); [by left|by right]. Qed.

Definition hits (rs : list resp) : list frame := map (fun r => FInteger (hit r)) rs.

(** Where the connection that sends the parts stands when the one that sends [ins] stands at [k]. *)
Inductive apart (ins : list request) : client -> client -> Prop :=
  | ap_idle qs i ps out : ins = qs ++ i -> merged qs ps out -> apart ins (Client i KIdle out) (Client (flat_map parts i) KIdle ps)
  | ap_same qs q i ps out pc : ins = qs ++ q :: i -> merged qs ps out ->
      match pc with KRun q' _ _ | KSend q' _ _ _ _ _ => q' = q /\ parts q = [q] | KEnd _ => True | KWrite _ | KFlush _ => parts q = [q] | KIdle => False end ->
      apart ins (Client i pc out) (Client (flat_map parts i) pc ps)
  | ap_run qs mk c kd k kt i ps out rs : many mk c -> ins = qs ++ mk (kd ++ k :: kt) :: i -> merged qs ps out -> length rs = length kd ->
      apart ins (Client i (KRun (mk (kd ++ k :: kt)) (map c (k :: kt)) rs) out)
        (Client (map (fun k => mk [k]) kt ++ flat_map parts i) (KRun (mk [k]) [c k] []) (ps ++ hits rs))
  | ap_done qs mk c kd k i ps out rs r : many mk c -> ins = qs ++ mk (kd ++ [k]) :: i -> merged qs ps out -> length rs = length kd ->
      apart ins (Client i (KRun (mk (kd ++ [k])) [] (rs ++ [r])) out)
        (Client (flat_map parts i) (KRun (mk [k]) [] [r]) (ps ++ hits rs))
  | ap_send qs mk c kd k kt i ps out rs es fs r : many mk c -> ins = qs ++ mk (kd ++ k :: kt) :: i -> merged qs ps out -> length rs = length kd ->
      apart ins (Client i (KSend (mk (kd ++ k :: kt)) (map c kt) rs es fs (OOk r)) out)
        (Client (map (fun k => mk [k]) kt ++ flat_map parts i) (KSend (mk [k]) [] [] es fs (OOk r)) (ps ++ hits rs))
  | ap_write qs q i ps out f ps1 f' : ins = qs ++ q :: i -> merged qs ps out -> merged [q] (ps1 ++ [f']) [f] ->
      apart ins (Client i (KWrite f) out) (Client (flat_map parts i) (KWrite f') (ps ++ ps1)).

(** Several steps of one connection at the same instant. *)
Fixpoint conn_steps (en : env) (now : N) (n : nat) (k : client) (b : db) (xs : list exp_msg) (fw : list fwd_msg) :=
  match n with
  | O => Some (k, b, xs, fw)
  | S n => match conn_step en now k b xs fw with Some (k', b', xs', fw') => conn_steps en now n k' b' xs' fw' | None => None end
  end.

Lemma apart_step en now ins k k' k2 b xs fw b2 xs2 fw2 : Forall separable ins ->
  apart ins k k' -> conn_step en now k b xs fw = Some (k2, b2, xs2, fw2) ->
  exists n k2', conn_steps en now n k' b xs fw = Some (k2', b2, xs2, fw2) /\ apart ins k2 k2'.
Proof.
  intros D A H. destruct A as [qs i ps out E M|qs q i ps out pc E M PC|qs mk c kd k kt i ps out rs MA E M L|qs mk c kd k i ps out rs r MA E M L
    |qs mk c kd k kt i ps out rs es fs r MA E M L|qs q i ps out f ps1 f' E M M1].
  - cbn [conn_step] in H. destruct i as [|q i]; [done|].
    destruct (parts_cases q) as [P|(mk & c & k & ks & MA & ->)].
    + assert (exists pc, k2 = Client i pc out /\ b2 = b /\ xs2 = xs /\ fw2 = fw /\
        (match pc with KRun q' _ _ | KSend q' _ _ _ _ _ => q' = q /\ parts q = [q] | KEnd _ => True | KWrite _ | KFlush _ => parts q = [q] | KIdle => False end) /\
        forall ins' out', conn_step en now (Client (q :: ins') KIdle out') b xs fw = Some (Client ins' pc out', b, xs, fw)) as (pc & -> & -> & -> & -> & PC & ST).
      { destruct q; try (destruct (plan_of now _) as [[cs|]| |] eqn:PL; try done); cbn [conn_step]; rewrite ?PL; cbv beta iota in H;
          injection H as <- <- <- <-; (eexists; split; [reflexivity|]); (split; [done|]); (split; [done|]); (split; [done|]); (split; [done|]); by intros. }
      exists 1, (Client (flat_map parts i) pc ps). split; [|by eapply ap_same].
      cbn [conn_steps flat_map]. rewrite P. cbn [app]. by rewrite ST.
    + assert (ST : forall ks ins' out', conn_step en now (Client (mk ks :: ins') KIdle out') b xs fw = Some (Client ins' (KRun (mk ks) (map c ks) []) out', b, xs, fw)).
      { intros. cbn [conn_step]. rewrite (many_plan mk c) by done. by destruct MA as [[-> ->]|[-> ->]]. }
      change (conn_step en now (Client (mk (k :: ks) :: i) KIdle out) b xs fw = Some (k2, b2, xs2, fw2)) in H. rewrite ST in H. injection H as <- <- <- <-.
      exists 1. eexists. split; [|apply (ap_run ins qs mk c [] k ks i ps out []); done].
      cbn [conn_steps flat_map]. rewrite (many_parts mk c) by done. cbn [map app]. rewrite ST. cbn [hits map]. by rewrite app_nil_r.
  - destruct k2 as [ins2 pc2 out2]. assert (NI : pc <> KIdle) by (by intros ->). destruct (mirror _ _ _ _ _ _ _ _ _ _ _ _ _ _ NI H) as (-> & o & -> & O & ST).
    exists 1, (Client (flat_map parts i) pc2 (ps ++ o)). split; [cbn [conn_steps]; by rewrite ST|].
    destruct O as [-> |(f & -> & -> & ->)].
    + rewrite !app_nil_r. apply (ap_same ins qs q); [done|done|].
      destruct pc as [|q' [|c cs] rs|q' cs rs [|m es] [|f fs] o|[|s ss]|f|h]; cbn [conn_step] in H; try done; try (injection H as _ H _ _ _; rewrite app_nil_r in H; apply (f_equal length) in H; rewrite app_length in H; cbn in H; lia); try (injection H; intros; subst; exact PC); destruct PC as [-> PC].
      * injection H; intros; subst. by destruct (answer _ _ _ _).
      * destruct (db_exec _ _ _ _). injection H; intros; subst. done.
      * injection H; intros; subst. by destruct o.
    + apply (ap_idle ins (qs ++ [q])); [by rewrite <- app_assoc|]. apply merged_app; [done|]. constructor; [done|constructor].
  - cbn [conn_step map] in H. destruct (many_ok mk c (e_ho en) now k b MA) as [r R]. destruct (db_exec (e_ho en) now (c k) b) as [b' w] eqn:X.
    cbn [snd] in R. rewrite R in H. injection H as <- <- <- <-.
    exists 1. eexists. split; [|apply (ap_send ins qs mk c kd k kt i ps out rs (wo_exp w) (wo_fwd w) r); done].
    cbn [conn_steps conn_step]. by rewrite X, R.
  - cbn [conn_step] in H. rewrite (many_answer mk c) in H by done. injection H as <- <- <- <-.
    exists 1. eexists. split; [cbn [conn_steps conn_step]; rewrite (many_answer mk c) by done; reflexivity|].
    apply (ap_write ins qs (mk (kd ++ [k]))); [done|done|].
    assert (DQ : separable (mk (kd ++ [k]))) by (subst ins; rewrite List.Forall_forall in D; apply D, in_or_app; right; by left).
    assert (LE : length (parts (mk (kd ++ [k]))) = length (rs ++ [r])).
    { rewrite (many_parts mk c) by (try done; by destruct kd). rewrite map_length, !app_length, L. done. }
    rewrite (hits_total (rs ++ [r])); [|rewrite <- LE; by destruct MA as [[-> ->]|[-> ->]]].
    replace (hits rs ++ [FInteger (count_hits [r])]) with (map FInteger (map hit (rs ++ [r])) ++ []).
    + constructor; [by rewrite map_length, LE|constructor].
    + unfold hits. rewrite app_nil_r, !map_app, map_map. done.
  - cbn [conn_step] in H. destruct es as [|m es]; [destruct fs as [|m fs]|].
    + injection H as <- <- <- <-. destruct kt as [|k1 kt].
      * exists 1. eexists. split; [reflexivity|]. cbn [map]. by apply (ap_done ins qs mk c kd k i ps out rs r).
      * exists 4, (Client (map (fun k => mk [k]) kt ++ flat_map parts i) (KRun (mk [k1]) [c k1] []) ((ps ++ hits rs) ++ [FInteger (count_hits [r])])). split.
        { cbn [conn_steps conn_step map app]. rewrite (many_answer mk c) by done. cbn [conn_steps conn_step]. rewrite (many_plan mk c) by done.
          destruct MA as [[-> ->]|[-> ->]]; reflexivity. }
        cbn [map]. replace (kd ++ k :: k1 :: kt) with ((kd ++ [k]) ++ k1 :: kt) by (by rewrite <- app_assoc).
        replace ((ps ++ hits rs) ++ [FInteger (count_hits [r])]) with (ps ++ hits (rs ++ [r])) by (unfold hits; by rewrite map_app, app_assoc).
        apply (ap_run ins qs mk c (kd ++ [k]) k1 kt i ps out (rs ++ [r])); [done| |done|].
        -- by rewrite <- app_assoc.
        -- rewrite !app_length, L. done.
    + injection H as <- <- <- <-. exists 1. eexists. split; [reflexivity|]. by apply (ap_send ins qs mk c kd k kt i ps out rs [] fs r).
    + injection H as <- <- <- <-. exists 1. eexists. split; [reflexivity|]. by apply (ap_send ins qs mk c kd k kt i ps out rs es fs r).
  - cbn [conn_step] in H. injection H as <- <- <- <-. exists 1. eexists. split; [reflexivity|].
    rewrite <- app_assoc. apply (ap_idle ins (qs ++ [q])); [by rewrite <- app_assoc|]. by apply merged_app.
Qed.

(** ** All connections *)
Lemma lookup_map {A B} (f : A -> B) l i y : map f l !! i = Some y -> exists a, l !! i = Some a /\ y = f a.
Proof. revert i; induction l as [|a l IH]; intros [|i] H; cbn in *; try done; [injection H as <-; by exists a|by apply IH]. Qed.
Lemma csteps_conn en i now n x k k' b xs fw : cs_conns x !! i = Some k ->
  conn_steps en now n k (cs_db x) (cs_exp x) (cs_fwd x) = Some (k', b, xs, fw) ->
  csteps en (repeat (i, now) n) x = Some (Clients b xs fw (<[i := k']> (cs_conns x))).
Proof.
  revert x k. induction n as [|n IH]; intros x k K H; cbn [conn_steps repeat csteps] in *.
  - injection H as -> <- <- <-. rewrite list_insert_id by done. by destruct x.
  - destruct (conn_step en now k (cs_db x) (cs_exp x) (cs_fwd x)) as [[[[k1 b1] xs1] fw1]|] eqn:E; [|done].
    unfold cstep at 1. cbn [fst snd]. rewrite K, E. erewrite IH.
    + cbn [cs_conns]. by rewrite list_insert_insert.
    + cbn [cs_conns]. apply list_lookup_insert. by apply lookup_lt_Some in K.
    + exact H.
Qed.

(** However the connections interleave: there is an execution in which every request about several keys is replaced by the
    requests for the single keys, one after the other, that leads to the same database and sends the same messages;
    its replies are those of the parts, and at every moment of the original execution the clock shows the same. *)
Theorem C75_parts en b ins evs x : Forall (Forall separable) ins -> csteps en evs (cs_start b ins) = Some x ->
  exists evs' x', csteps en evs' (cs_start b (map (flat_map parts) ins)) = Some x' /\
    cs_db x' = cs_db x /\ cs_exp x' = cs_exp x /\ cs_fwd x' = cs_fwd x /\
    (Forall (fun t => In t (map snd evs)) (map snd evs') /\ (StronglySorted N.le (map snd evs) -> StronglySorted N.le (map snd evs'))) /\
    forall i k, cs_conns x !! i = Some k -> exists k' qs rest ps,
      cs_conns x' !! i = Some k' /\ nth i ins [] = qs ++ rest /\ merged qs ps (k_out k) /\ (exists last, k_out k' = ps ++ last) /\
      (k_pc k = KIdle -> rest = k_in k /\ k_pc k' = KIdle /\ k_out k' = ps /\ k_in k' = flat_map parts (k_in k)).
Proof.
  intros D H.
  assert (G : exists evs' x', csteps en evs' (cs_start b (map (flat_map parts) ins)) = Some x' /\
    cs_db x' = cs_db x /\ cs_exp x' = cs_exp x /\ cs_fwd x' = cs_fwd x /\
    (Forall (fun t => In t (map snd evs)) (map snd evs') /\ (StronglySorted N.le (map snd evs) -> StronglySorted N.le (map snd evs'))) /\
    length (cs_conns x') = length (cs_conns x) /\
    forall i k k', cs_conns x !! i = Some k -> cs_conns x' !! i = Some k' -> apart (nth i ins []) k k').
  { revert x H. induction evs as [|[i t] evs IH] using rev_ind; intros x H.
    - injection H as <-. exists [], (cs_start b (map (flat_map parts) ins)). repeat (split; [done|]). split; [split; [constructor|by intros]|].
      split; [cbn; by rewrite !map_length|]. intros i k k' K K'. cbn [cs_start cs_conns] in K, K'.
      apply lookup_map in K as (l & E & ->). apply lookup_map in K' as (l1 & E1 & ->). apply lookup_map in E1 as (l2 & E2 & ->).
      rewrite E in E2. injection E2 as <-.
      rewrite (nth_lookup_Some _ _ _ _ E). by apply (ap_idle l []); [|constructor].
    - rewrite csteps_app in H. destruct (csteps en evs (cs_start b ins)) as [y|] eqn:Y; [|done]. cbn [csteps] in H.
      destruct (cstep en (i, t) y) as [z|] eqn:Z; [|done]. injection H as ->.
      destruct (IH y eq_refl) as (evs' & y' & Y' & E1 & E2 & E3 & (T1 & T2) & LE & AP). clear IH.
      unfold cstep in Z. cbn [fst snd] in Z. destruct (cs_conns y !! i) as [k|] eqn:K; [|done].
      destruct (conn_step en t k (cs_db y) (cs_exp y) (cs_fwd y)) as [[[[k2 b2] xs2] fw2]|] eqn:S; [|done]. injection Z as <-.
      assert (exists k', cs_conns y' !! i = Some k') as [k' K'].
      { apply lookup_lt_is_Some. rewrite LE. by apply lookup_lt_Some in K. }
      assert (DI : Forall separable (nth i ins [])).
      { destruct (nth_in_or_default i ins []) as [I| ->]; [|constructor]. rewrite List.Forall_forall in D. by apply D. }
      destruct (apart_step en t _ k k' k2 _ _ _ _ _ _ DI (AP i k k' K K') S) as (n & k2' & ST & A2).
      rewrite <- E1, <- E2, <- E3 in ST. pose proof (csteps_conn en i t n y' k' k2' _ _ _ K' ST) as CS.
      exists (evs' ++ repeat (i, t) n), (Clients b2 xs2 fw2 (<[i := k2']> (cs_conns y'))). rewrite csteps_app, Y'. split; [exact CS|].
      repeat (split; [done|]). cbn [cs_conns]. split; [|split; [by rewrite !insert_length|]].
      + rewrite !map_app. cbn [map snd]. assert (RE : map snd (repeat (i, t) n) = repeat t n) by (clear; induction n; cbn; by f_equal). rewrite RE. split.
        * apply List.Forall_app. split; [eapply List.Forall_impl; [|exact T1]; intros; apply in_or_app; by left|].
          apply List.Forall_forall. intros u U. apply repeat_spec in U as ->. apply in_or_app. right. by left.
        * intros SO. pose proof (T2 (sorted_init _ _ SO)) as SO'.
          assert (LT : Forall (fun u => (u <= t)%N) (map snd evs')).
          { eapply List.Forall_impl; [|exact T1]. intros u U. apply (sorted_app_last t _ u SO). apply in_or_app. by left. }
          clear -SO' LT. induction n as [|n IH]; cbn [repeat]; [by rewrite app_nil_r|]. rewrite repeat_cons, app_assoc.
          apply sorted_snoc; [exact IH|]. apply List.Forall_app. split; [done|]. apply List.Forall_forall. intros u U. apply repeat_spec in U as ->. lia.
      + intros j kj kj' KJ KJ'. destruct (decide (j = i)) as [-> |NE].
        * rewrite list_lookup_insert in KJ by (by apply lookup_lt_Some in K). rewrite list_lookup_insert in KJ' by (by apply lookup_lt_Some in K').
          injection KJ as <-. injection KJ' as <-. done.
        * rewrite list_lookup_insert_ne in KJ, KJ' by done. by apply AP. }
  destruct G as (evs' & x' & CS & E1 & E2 & E3 & T & LE & AP). exists evs', x'. repeat (split; [done|]). intros i k K.
  assert (exists k', cs_conns x' !! i = Some k') as [k' K'].
  { apply lookup_lt_is_Some. rewrite LE. by apply lookup_lt_Some in K. }
  exists k'. pose proof (AP i k k' K K') as A.
  destruct A as [qs j ps out E M|qs q j ps out pc E M PC|qs mk c kd k kt j ps out rs MA E M L|qs mk c kd k j ps out rs r MA E M L
    |qs mk c kd k kt j ps out rs es fs r MA E M L|qs q j ps out f ps1 f' E M M1]; eexists qs, _, ps; (split; [done|]); (split; [exact E|]); (split; [exact M|]); cbn [k_pc k_in k_out].
  - split; [exists []; by rewrite app_nil_r|done].
  - split; [exists []; by rewrite app_nil_r|by intros ->].
  - split; [by eexists|done].
  - split; [by eexists|done].
  - split; [by eexists|done].
  - split; [by eexists|done].
Qed.
Print Assumptions C75_parts.

Lemma divisible_separable q : divisible q -> separable q.
Proof. by destruct q. Qed.
Lemma parts_single q : divisible q -> Forall single (parts q).
Proof.
  intros D. apply List.Forall_forall. intros p P. apply C75_single_requests.
  destruct (parts_cases q) as [E|(mk & c & k & ks & MA & ->)].
  - rewrite E in P. destruct P as [<-|[]]. destruct q; try done; destruct ks as [|? [|]]; cbn in *; try done; lia.
  - rewrite (many_parts mk c) in P by done. apply in_map_iff in P as (y & <- & _). destruct MA as [[-> ->]|[-> ->]]; cbn; lia.
Qed.

(** Conversations of many clients that also use DEL and EXISTS with several keys. *)
Theorem C107_clients_parts : exists num, reads_counters num /\ forall en b m ins evs x,
  horder_ok (e_ho en) -> shows 0 b m -> neat m -> Forall (Forall (fun q => divisible q /\ Forall everyday (parts q))) ins ->
  csteps en evs (cs_start b ins) = Some x -> StronglySorted N.le (map snd evs) ->
  exists l fs m' t, talk en num m l fs m' /\ shows t (cs_db x) m' /\
    forall i k, cs_conns x !! i = Some k -> exists qs rest ps,
      nth i ins [] = qs ++ rest /\ merged qs ps (k_out k) /\ (exists last, told i l fs = ps ++ last) /\
      (exists more, flat_map parts (nth i ins []) = asked i l ++ more) /\
      (k_pc k = KIdle -> rest = k_in k /\ told i l fs = ps /\ asked i l = flat_map parts qs).
Proof.
  destruct C107_clients as (num & RC & C). exists num. split; [done|]. intros en b m ins evs x HO S N A H T.
  assert (D : Forall (Forall separable) ins) by (eapply List.Forall_impl; [|exact A]; intros qs Q; eapply List.Forall_impl; [|exact Q]; intros ? []; by apply divisible_separable).
  destruct (C75_parts en b ins evs x D H) as (evs' & x' & CS & E1 & _ & _ & (_ & T') & AP). specialize (T' T).
  assert (A' : Forall (Forall (fun q => single q /\ everyday q)) (map (flat_map parts) ins)).
  { apply List.Forall_map. eapply List.Forall_impl; [|exact A]. intros qs Q. apply List.Forall_forall. intros p P. apply in_flat_map in P as (q & IN & P).
    rewrite List.Forall_forall in Q. destruct (Q q IN) as [D1 D2]. pose proof (parts_single q D1) as D3. rewrite List.Forall_forall in D2, D3. split; [by apply D3|by apply D2]. }
  destruct (C en b m (map (flat_map parts) ins) evs' x' HO S N A' CS T') as (l & fs & m' & t & TA & SH & CO).
  exists l, fs, m', t. split; [done|]. rewrite <- E1. split; [done|]. intros i k K.
  destruct (AP i k K) as (k' & qs & rest & ps & K' & E & M & (la & L) & I). destruct (CO i k' K') as ((more & M1) & (la2 & L2 & _) & I2).
  change (@nil request) with (flat_map parts []) in M1. rewrite map_nth in M1.
  exists qs, rest, ps. split; [done|]. split; [done|]. split; [rewrite L2, L; rewrite <- app_assoc; by eexists|]. split; [by exists more|].
  intros KI. destruct (I KI) as (-> & PI & O & IN). destruct (I2 PI) as [O2 M2]. split; [done|]. split; [congruence|].
  change (@nil request) with (flat_map parts []) in M2. rewrite map_nth, E, flat_map_app, IN in M2. by apply app_inv_tail in M2.
Qed.
Print Assumptions C107_clients_parts.

(** ** One client over the wire *)
Lemma each_serial en (mk : bytes -> request) ks : forall clock e z e',
  each_key en mk clock alone ks e z e' ->
  exists zs, serial en (part_entries clock (map mk ks)) e = (e', map (fun z => (O, inl (FInteger z))) zs) /\ z = sum_of zs /\ length zs = length ks.
Proof.
  induction ks as [|k ks IH]; intros clock e z e' H; inversion H; subst; [by exists []|].
  cbn [map part_entries serial sv_clock sv_req sv_conn].
  match goal with H : serve_request _ _ _ _ _ = _ |- _ => rewrite H end.
  match goal with H : each_key _ _ _ (fun i => alone (S i)) _ _ _ _ |- _ => change (fun i => alone (S i)) with alone in H; destruct (IH _ _ _ _ H) as (zs & -> & -> & L) end.
  exists (z1 :: zs). split; [done|]. split; [done|]. cbn. by rewrite L.
Qed.
Lemma serve_apart en clock q e : (Z.of_nat (length (parts q)) < 2 ^ 63)%Z ->
  exists e' rs, serial en (part_entries clock (parts q)) e = (e', map (fun r => (O, r)) rs) /\
    (parts q = [q] /\ serve_request en clock alone q e = (e', nth 0 rs (inr HPanic)) /\ length rs = 1 \/
     exists zs, rs = map (fun z => inl (FInteger z)) zs /\ length zs = length (parts q) /\ serve_request en clock alone q e = (e', inl (FInteger (sum_of zs)))).
Proof.
  intros L. destruct (parts_cases q) as [E|(mk & c & k & ks & MA & ->)].
  - rewrite E. cbn [part_entries serial sv_clock sv_req sv_conn]. destruct (serve_request en clock alone q e) as [e1 r]. exists e1, [r]. split; [done|]. by left.
  - rewrite (many_parts mk c) in * by done. rewrite map_length in L.
    assert (exists z e', each_key en (fun k => mk [k]) clock alone (k :: ks) e z e' /\ serve_request en clock alone (mk (k :: ks)) e = (e', inl (FInteger z))) as (z & e' & EK & SR).
    { destruct MA as [[-> _]|[-> _]]; [by apply C69_del|by apply C69_exists]. }
    destruct (each_serial en (fun k => mk [k]) (k :: ks) clock e z e' EK) as (zs & SE & -> & LZ).
    exists e', (map (fun z => inl (FInteger z)) zs). rewrite SE, map_map. split; [done|]. right. exists zs. rewrite map_length. done.
Qed.

Lemma session_apart en fs qs : Forall2 (fun f q => from_frame f = Some q) fs qs -> Forall (fun q => (Z.of_nat (length (parts q)) < 2 ^ 63)%Z) qs ->
  forall clock e rs e' o ps, session en clock (fun _ => alone) e fs rs e' o ->
  map snd (snd (serial en (entries_apart clock qs) e)) = map inl ps ->
  o = None /\ merged qs ps rs /\ e' = fst (serial en (entries_apart clock qs) e).
Proof.
  induction 1 as [|f q fs qs F _ IH]; intros D clock e rs e' o ps S E; inversion D; subst.
  - inversion S; subst. cbn in *. destruct ps; [|done]. split; [done|]. split; [constructor|done].
  - cbn [entries_apart] in *. rewrite serial_app in E |- *.
    destruct (serve_apart en (clock 0) q e) as (e1 & r1 & S1 & C); [done|]. rewrite S1 in E |- *.
    destruct (serial en (entries_apart (fun i => clock (Datatypes.S i)) qs) e1) as [e2 r2] eqn:S2. cbn [snd fst] in E |- *.
    rewrite map_app, map_map in E. cbn [snd] in E. rewrite map_id in E.
    assert (exists p1 p2, ps = p1 ++ p2 /\ r1 = map inl p1 /\ map snd r2 = map inl p2) as (p1 & p2 & -> & -> & E2).
    { symmetry in E. apply map_eq_app in E as (p1 & p2 & -> & <- & <-). by exists p1, p2. }
    inversion S as [|? ? ? ? ? e3 r rs1 ? ? SF SR|? ? ? ? ? ? h SF]; subst; unfold serve_frame in SF; rewrite F in SF.
    + assert (e3 = e1) as -> by (destruct C as [(_ & C & _)|(zs & _ & _ & C)]; congruence).
      specialize (IH ltac:(assumption) _ _ _ _ _ p2 SR). rewrite S2 in IH. destruct (IH E2) as (-> & M & ->). split; [done|]. split; [|done].
      destruct C as [(P & C & L)|(zs & P & L & C)].
      * destruct p1 as [|p [|]]; try done. cbn in C. assert (r = p) as -> by congruence. by constructor.
      * assert (r = FInteger (sum_of zs)) as -> by congruence.
        assert (p1 = map FInteger zs) as ->; [|by constructor]. clear -P. revert p1 P. induction zs as [|z zs IHz]; intros [|p p1] P; cbn in P; try done.
        injection P as -> P. cbn. f_equal. by apply IHz.
    + exfalso. destruct C as [(P & C & L)|(zs & P & L & C)]; [|congruence]. destruct p1 as [|p [|]]; try done. cbn in C. congruence.
Qed.

(** DEL and EXISTS with any number of keys are explained as the requests for the single keys at successive instants. *)
Theorem C107_bytes_parts : exists num, reads_counters num /\ forall en clock fs qs chunks t e m,
  horder_ok (e_ho en) -> Forall wf_frame fs -> Forall2 (fun f q => from_frame f = Some q) fs qs ->
  Forall (fun q => (Z.of_nat (length (parts q)) < 2 ^ 63)%Z) qs ->
  Forall (fun c => c <> []) chunks -> concat chunks = concat (map write fs) ->
  shows t (ef_db e) m -> forward t (entries_apart clock qs) -> covered en num m (entries_apart clock qs) ->
  let '(e', rs, h) := connection en clock (fun _ => alone) chunks e in
  h = HClean /\ exists ps m', talk en num m (entries_apart clock qs) ps m' /\ merged qs ps rs /\
    shows (List.last (map (fun s => sv_clock s 1%nat) (entries_apart clock qs)) t) (ef_db e') m'.
Proof.
  exists read_int. split; [apply read_int_counters|]. intros en clock fs qs chunks t e m HO W Q D N E S F C.
  pose proof (C65_connection_is_a_session en clock (fun _ => alone) chunks e) as SS. rewrite (C04_pipeline fs chunks W N E) in SS.
  destruct (connection en clock (fun _ => alone) chunks e) as [[e' rs] h]. destruct SS as (o & SS & O).
  pose proof (conversation en (entries_apart clock qs) t e m HO S F C) as T.
  pose proof (session_apart en fs qs Q D clock e rs e' o) as I.
  destruct (serial en (entries_apart clock qs) e) as [e2 rs2]. destruct T as (ps & m' & T1 & _ & T3 & T4).
  destruct (I ps SS T1) as (-> & M & ->). destruct O as [_ ->]. split; [done|]. exists ps, m'. done.
Qed.
Print Assumptions C107_bytes_parts.

(** ** Cases *)
Definition c107_several : list request := [cl_set cl_a; QExists [cl_a; cl_b; cl_a]; QDel [cl_b; cl_a]].
Example C107_bytes_parts_case :
  Forall2 (fun f q => from_frame f = Some q)
    [req [bs "SET"; cl_a; bs "v"]; req [bs "exists"; cl_a; cl_b; cl_a]; req [bs "DEL"; cl_b; cl_a]] c107_several /\
  forward 0 (entries_apart ex_clock c107_several) /\ (forall num, covered ex_env num nothing_stored (entries_apart ex_clock c107_several)) /\
  Forall (fun q => divisible q /\ Forall everyday (parts q)) c107_several /\
  merged c107_several [all_ok; FInteger 1; FInteger 0; FInteger 1; FInteger 0; FInteger 1] [all_ok; FInteger 2; FInteger 1] /\
  snd (fst (connection ex_env ex_clock (fun _ => alone) [concat (map (fun r => write (req r)) [[bs "SET"; cl_a; bs "v"]; [bs "exists"; cl_a; cl_b; cl_a]; [bs "DEL"; cl_b; cl_a]])] ex_start)) =
    [all_ok; FInteger 2; FInteger 1].
Proof.
  assert (A : Forall (fun q => divisible q /\ Forall everyday (parts q)) c107_several).
  { repeat constructor; cbn; eauto. }
  split; [repeat constructor; vm_compute; reflexivity|]. split; [repeat (constructor; try done)|].
  split; [intros num; apply C107_everyday; [by intros k h v d|]; repeat (constructor; cbn; try done; eauto)|].
  split; [done|]. split; [|vm_compute; reflexivity].
  apply merged_one; [done|]. apply (merged_sum (QExists [cl_a; cl_b; cl_a]) [1; 0; 1]%Z); [done|]. apply (merged_sum (QDel [cl_b; cl_a]) [0; 1]%Z); [done|constructor].
Qed.
(** Two clients: while one asks for two keys, the other writes the first and deletes the second: the conversation that
    explains it has the other's requests between the parts (C75_exists_torn_refuted: no order of the whole requests explains it). *)
Example C75_parts_case : Forall (Forall (fun q => divisible q /\ Forall everyday (parts q))) [[QExists [cl_a; cl_b]]; [cl_set cl_a; QDel [cl_b]]].
Proof. repeat constructor; cbn; eauto. Qed.
