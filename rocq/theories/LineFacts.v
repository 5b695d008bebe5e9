(** Lemmas about command lines: each parser of Request accepts exactly the argument lists of its shape. *)
From Verif Require Export RequestFacts SpecLine.

Lemma as_bytes_iff b f : as_bytes f = Some b <-> is_text b f.
Proof. split; [|apply text_bytes]. unfold is_text. destruct f; cbn; intros H; try discriminate H; injection H as ->; auto. Qed.
Lemma as_data_iff x f : as_data f = Some x <-> is_data x f.
Proof.
  split; [destruct f; cbn; intros H; try discriminate H; injection H as <-; done|].
  destruct x; cbn; try done; by intros ->.
Qed.
Lemma as_int_iff z f : as_int f = Some z <-> read_as z f.
Proof.
  unfold read_as, is_text. split.
  - destruct f; cbn; intros H; try discriminate H; [right; eauto|right; eauto|injection H as ->; auto].
  - intros [->|(b & [->| ->] & H)]; done.
Qed.
Lemma as_u64_iff n f : as_u64 f = Some n <-> is_count n f.
Proof.
  unfold as_u64, is_count. split.
  - destruct (as_int f) as [z|] eqn:E; [|done]. cbn. intros H. injection H as <-. exists z. split; [by apply as_int_iff|]. done.
  - intros (z & H & ->). apply as_int_iff in H. rewrite H. done.
Qed.
Lemma as_str_iff b f : as_str f = Some b <-> is_utf8 b f.
Proof.
  unfold is_utf8, is_text. split.
  - destruct f; cbn [as_str]; intros H; try discriminate H;
      try (match type of H with context [utf8_valid ?t] => destruct (utf8_valid t) eqn:U; [|discriminate H] end); injection H as <-; by auto.
  - intros [[[->| ->] U]|[-> ->]]; cbn [as_str]; by rewrite ?U.
Qed.
Lemma number_read z f : is_number z f -> (- 2 ^ 63 <= z < 2 ^ 63)%Z -> read_as z f.
Proof. intros H L. apply as_int_iff. by apply number_int. Qed.

(** The result of a parser at the end of the line. *)
Definition takes (p : qparser request) (args : list frame) (q : request) : Prop :=
  match p args with QOk q' [] => Some q' | _ => None end = Some q.
Lemma takes_ok p args q : takes p args q <-> p args = QOk q [].
Proof.
  unfold takes. destruct (p args) as [q' [|]| |]; split; intros H; try discriminate H.
  - by injection H as ->. - by injection H as ->.
Qed.

Lemma rest_all {A} (conv : frame -> option A) (R : A -> frame -> Prop) : (forall a f, conv f = Some a <-> R a f) ->
  forall c l c', rest_of conv c = QOk l c' <-> c' = [] /\ Forall2 R l c.
Proof.
  intros H. induction c as [|f c IH]; intros l c'; cbn [rest_of].
  - split; [intros E; injection E as <- <-; (split; [done|constructor])|]. intros [-> F]. inversion F. done.
  - split.
    + destruct (conv f) as [a|] eqn:E; [|done]. destruct (rest_of conv c) as [l' c2| |] eqn:E2; [|done|done].
      intros X. injection X as <- <-. destruct (proj1 (IH l' c2) eq_refl) as [-> F]. split; [done|]. constructor; [by apply H|done].
    + intros [-> F]. inversion F as [|a f' l' c2 H1 H2]; subst. apply H in H1. rewrite H1.
      rewrite (proj2 (IH l' [])) by done. done.
Qed.
Lemma many_all {A} (conv : frame -> option A) (R : A -> frame -> Prop) : (forall a f, conv f = Some a <-> R a f) ->
  forall c l c', many conv c = QOk l c' <-> c' = [] /\ c <> [] /\ Forall2 R l c.
Proof.
  intros H c l c'. unfold many, qbind. destruct c as [|f c]; cbn [next]; [split; [done|by intros (_ & ? & _)]|]. split.
  - destruct (conv f) as [a|] eqn:E; [|done]. destruct (rest_of conv c) as [l' c2| |] eqn:E2; [|done|done].
    unfold qret. intros X. injection X as <- <-. apply (rest_all conv R H) in E2 as [-> F]. apply H in E.
    split; [done|]. split; [done|]. by constructor.
  - intros (-> & _ & F). inversion F as [|a2 f2 l2 c2 H1 H2]; subst. apply H in H1. rewrite H1.
    by rewrite (proj2 (rest_all conv R H c l2 [])).
Qed.
Lemma rest_pairs_all {A B} (c1 : frame -> option A) (c2 : frame -> option B) (R1 : A -> frame -> Prop) (R2 : B -> frame -> Prop) :
  (forall a f, c1 f = Some a <-> R1 a f) -> (forall a f, c2 f = Some a <-> R2 a f) ->
  forall c l c', rest_pairs c1 c2 c = QOk l c' <->
    c' = [] /\ exists fss, c = concat fss /\ Forall2 (fun e fs => exists g h, fs = [g; h] /\ R1 (fst e) g /\ R2 (snd e) h) l fss.
Proof.
  intros P1 P2 c. remember (length c) as n eqn:En. revert c En. induction n as [n IH] using lt_wf_ind.
  intros [|f [|g c]] -> l c'.
  - cbn. split.
    + intros E. injection E as <- <-. split; [done|]. exists []. split; [done|constructor].
    + intros (-> & fss & E & F). destruct F as [|e fs l fss (g & h & -> & _) _]; [done|]. discriminate E.
  - cbn. split; [by destruct (c1 f)|]. intros (-> & fss & E & F). destruct F as [|e fs l fss (g & h & -> & _) _]; discriminate E.
  - cbn [rest_pairs]. split.
    + destruct (c1 f) as [a|] eqn:E1; [|done]. destruct (c2 g) as [b|] eqn:E2; [|done].
      destruct (rest_pairs c1 c2 c) as [l' c3| |] eqn:E3; [|done|done]. intros X. injection X as <- <-.
      apply (IH (length c)) in E3 as (-> & fss & -> & F); [|cbn; lia|done]. split; [done|]. exists ([f; g] :: fss). split; [done|].
      constructor; [|done]. exists f, g. split; [done|]. cbn. split; [by apply P1|by apply P2].
    + intros (-> & fss & E & F). destruct F as [|[a b] fs l fss (g' & h & -> & H1 & H2) F]; [done|]. cbn in E, H1, H2.
      injection E as <- <- ->. apply P1 in H1. apply P2 in H2. rewrite H1, H2.
      rewrite (proj2 (IH (length (concat fss)) ltac:(cbn; lia) (concat fss) eq_refl l [])); [done|]. split; [done|]. by exists fss.
Qed.
Lemma many_pairs_all {A B} (c1 : frame -> option A) (c2 : frame -> option B) (R1 : A -> frame -> Prop) (R2 : B -> frame -> Prop) :
  (forall a f, c1 f = Some a <-> R1 a f) -> (forall a f, c2 f = Some a <-> R2 a f) ->
  forall c l c', many_pairs c1 c2 c = QOk l c' <->
    c' = [] /\ exists fss, c = concat fss /\ fss <> [] /\ Forall2 (fun e fs => exists g h, fs = [g; h] /\ R1 (fst e) g /\ R2 (snd e) h) l fss.
Proof.
  intros P1 P2 c l c'. unfold many_pairs, qbind, qret. split.
  - destruct c as [|f [|g c]]; cbn [next]; [done|by destruct (c1 f)|].
    destruct (c1 f) as [a|] eqn:E1; [|done]. cbn [next]. destruct (c2 g) as [b|] eqn:E2; [|done].
    destruct (rest_pairs c1 c2 c) as [l' c3| |] eqn:E3; [|done|done]. intros X. injection X as <- <-.
    apply (rest_pairs_all _ _ _ _ P1 P2) in E3 as (-> & fss & -> & F). split; [done|]. exists ([f; g] :: fss). split; [done|]. split; [done|].
    constructor; [|done]. exists f, g. split; [done|]. cbn. split; [by apply P1|by apply P2].
  - intros (-> & fss & -> & N & F). destruct F as [|[a b] fs l fss (g' & h & -> & H1 & H2) F]; [done|]. cbn in H1, H2.
    cbn [concat app next]. apply P1 in H1. apply P2 in H2. rewrite H1. cbn [next]. rewrite H2.
    rewrite (proj2 (rest_pairs_all _ _ _ _ P1 P2 (concat fss) l [])); [done|]. split; [done|]. by exists fss.
Qed.

(** ** Parsers by shape *)
Definition shape_parser (s : shape) : qparser request :=
  match s with
  | NoArgs q => qret q
  | OneKey mk => p_key mk
  | OneCount mk => qmap mk (next as_u64)
  | Keys mk => p_keys mk
  | KeyText mk => p_key1 as_bytes mk
  | KeyInt mk => p_key1 as_int mk
  | KeyMaybeCount mk => p_pop mk
  | KeyTexts mk => p_key_many as_bytes mk
  | KeyDatas mk => p_key_many as_data mk
  | KeyPairs mk => k <-? next as_bytes;; l <-? many_pairs as_bytes as_data;; qret (mk k l)
  | KeyTextData mk => p_key2 as_bytes as_data mk
  | KeyTextInt mk => p_key2 as_bytes as_int mk
  | KeyCountData mk => p_key2 as_u64 as_data mk
  | KeyIntInt mk => p_key2 as_int as_int mk
  | KeyStrStr mk => p_minmax mk
  end.
Lemma next_iff {A} (conv : frame -> option A) (R : A -> frame -> Prop) : (forall a f, conv f = Some a <-> R a f) ->
  forall c a c', next conv c = QOk a c' <-> exists f, c = f :: c' /\ R a f.
Proof.
  intros H c a c'. split.
  - intros E. apply next_ok in E as (f & -> & E). exists f. split; [done|]. by apply H.
  - intros (f & -> & E). apply H in E. cbn. by rewrite E.
Qed.
Lemma key1_iff {A} (conv : frame -> option A) (R : A -> frame -> Prop) mk : (forall a f, conv f = Some a <-> R a f) ->
  forall args q, p_key1 conv mk args = QOk q [] <-> exists k a f g, args = [f; g] /\ is_text k f /\ R a g /\ q = mk k a.
Proof.
  intros H args q. unfold p_key1. split.
  - intros E. apply qbind_ok in E as (k & c1 & E1 & E). apply qbind_ok in E as (a & c2 & E2 & E). injection E as <- ->.
    apply (next_iff _ _ as_bytes_iff) in E1 as (f & -> & E1). apply (next_iff _ _ H) in E2 as (g & -> & E2). by exists k, a, f, g.
  - intros (k & a & f & g & -> & H1 & H2 & ->). unfold qbind. cbn [next]. apply as_bytes_iff in H1. apply H in H2. rewrite H1. cbn [next]. by rewrite H2.
Qed.
Lemma key2_iff {A B} (c1 : frame -> option A) (c2 : frame -> option B) (R1 : A -> frame -> Prop) (R2 : B -> frame -> Prop) mk :
  (forall a f, c1 f = Some a <-> R1 a f) -> (forall a f, c2 f = Some a <-> R2 a f) ->
  forall args q, p_key2 c1 c2 mk args = QOk q [] <-> exists k a b f g h, args = [f; g; h] /\ is_text k f /\ R1 a g /\ R2 b h /\ q = mk k a b.
Proof.
  intros P1 P2 args q. unfold p_key2. split.
  - intros E. apply qbind_ok in E as (k & d1 & E1 & E). apply qbind_ok in E as (a & d2 & E2 & E). apply qbind_ok in E as (b & d3 & E3 & E).
    injection E as <- ->. apply (next_iff _ _ as_bytes_iff) in E1 as (f & -> & E1). apply (next_iff _ _ P1) in E2 as (g & -> & E2).
    apply (next_iff _ _ P2) in E3 as (h & -> & E3). by exists k, a, b, f, g, h.
  - intros (k & a & b & f & g & h & -> & H1 & H2 & H3 & ->). unfold qbind. cbn [next].
    apply as_bytes_iff in H1. apply P1 in H2. apply P2 in H3. rewrite H1. cbn [next]. rewrite H2. cbn [next]. by rewrite H3.
Qed.
Lemma key_many_iff {A} (conv : frame -> option A) (R : A -> frame -> Prop) mk : (forall a f, conv f = Some a <-> R a f) ->
  forall args q, p_key_many conv mk args = QOk q [] <->
    exists k xs f fs, args = f :: fs /\ fs <> [] /\ is_text k f /\ Forall2 R xs fs /\ q = mk k xs.
Proof.
  intros H args q. unfold p_key_many. split.
  - intros E. apply qbind_ok in E as (k & c1 & E1 & E). apply qbind_ok in E as (xs & c2 & E2 & E). injection E as <- ->.
    apply (next_iff _ _ as_bytes_iff) in E1 as (f & -> & E1). apply (many_all _ _ H) in E2 as (_ & N & F). by exists k, xs, f, c1.
  - intros (k & xs & f & fs & -> & N & H1 & F & ->). unfold qbind. cbn [next]. apply as_bytes_iff in H1. rewrite H1.
    by rewrite (proj2 (many_all _ _ H fs xs [])).
Qed.

Lemma shape_fits s args q : shape_parser s args = QOk q [] <-> fits s args q.
Proof.
  destruct s; cbn [shape_parser fits].
  - unfold qret. split; [intros E; by injection E as -> ->|by intros [-> ->]].
  - unfold p_key, qmap. split.
    + intros E. apply qbind_ok in E as (k & c1 & E1 & E). injection E as <- ->.
      apply (next_iff _ _ as_bytes_iff) in E1 as (f & -> & E1). by exists k, f.
    + intros (k & f & -> & H & ->). unfold qbind. cbn [next]. apply as_bytes_iff in H. by rewrite H.
  - unfold qmap. split.
    + intros E. apply qbind_ok in E as (k & c1 & E1 & E). injection E as <- ->.
      apply (next_iff _ _ as_u64_iff) in E1 as (f & -> & E1). by exists k, f.
    + intros (k & f & -> & H & ->). unfold qbind. cbn [next]. apply as_u64_iff in H. by rewrite H.
  - unfold p_keys, qmap. split.
    + intros E. apply qbind_ok in E as (ks & c1 & E1 & E). injection E as <- ->.
      apply (many_all _ _ as_bytes_iff) in E1 as (_ & N & F). by exists ks.
    + intros (ks & N & F & ->). unfold qbind. by rewrite (proj2 (many_all _ _ as_bytes_iff args ks [])).
  - apply key1_iff, as_bytes_iff.
  - apply key1_iff, as_int_iff.
  - unfold p_pop. split.
    + intros E. apply qbind_ok in E as (k & c1 & E1 & E). apply qbind_ok in E as (n & c2 & E2 & E). injection E as <- ->.
      apply (next_iff _ _ as_bytes_iff) in E1 as (f & -> & E1). exists k, f. split; [done|]. unfold defaulted in E2.
      destruct (next as_u64 c1) as [n' c3| |] eqn:E3; [|left|done].
      * injection E2 as -> ->. apply (next_iff _ _ as_u64_iff) in E3 as (g & -> & E3). right. by exists n, g.
      * injection E2 as <- ->. done.
    + intros (k & f & H & [[-> ->]|(n & g & -> & H2 & ->)]); unfold qbind; cbn [next]; apply as_bytes_iff in H; rewrite H; [done|].
      unfold defaulted. cbn [next]. apply as_u64_iff in H2. by rewrite H2.
  - apply key_many_iff, as_bytes_iff.
  - apply key_many_iff, as_data_iff.
  - split.
    + intros E. apply qbind_ok in E as (k & c1 & E1 & E). apply qbind_ok in E as (es & c2 & E2 & E). injection E as <- ->.
      apply (next_iff _ _ as_bytes_iff) in E1 as (f & -> & E1).
      apply (many_pairs_all _ _ _ _ as_bytes_iff as_data_iff) in E2 as (_ & fss & -> & N & F). by exists k, es, f, fss.
    + intros (k & es & f & fss & -> & N & H1 & F & ->). unfold qbind. cbn [next]. apply as_bytes_iff in H1. rewrite H1.
      rewrite (proj2 (many_pairs_all _ _ _ _ as_bytes_iff as_data_iff (concat fss) es [])); [done|]. split; [done|]. by exists fss.
  - apply key2_iff; [apply as_bytes_iff|apply as_data_iff].
  - apply key2_iff; [apply as_bytes_iff|apply as_int_iff].
  - apply key2_iff; [apply as_u64_iff|apply as_data_iff].
  - apply key2_iff; apply as_int_iff.
  - apply key2_iff; apply as_str_iff.
Qed.

(** ** The table *)
Lemma plain_lookup n s : (n, s) ∈ plain_commands -> ascii_text n = true /\ lookup_command (lower n) commands = Some (shape_parser s).
Proof.
  intros H. assert (K : Forall (fun p => ascii_text (fst p) = true /\ lookup_command (lower (fst p)) commands = Some (shape_parser (snd p))) plain_commands).
  { unfold plain_commands. repeat (apply List.Forall_cons; [split; reflexivity|]). apply List.Forall_nil. }
  exact (proj1 (list.Forall_forall _ _) K (n, s) H).
Qed.

(** ** Options *)
Lemma read_int_arg z f : read_as z f -> as_int f = Some z.
Proof. apply as_int_iff. Qed.
Lemma count_arg n f : is_count n f -> as_u64 f = Some n.
Proof. apply as_u64_iff. Qed.

(** LIMIT and WITHSCORES *)
Definition w_eff (s : bool * limit) (o : wopt) : bool * limit :=
  (match wscores_of o with Some b => b | None => fst s end, match wlimit_of o with Some l => l | None => snd s end).
Lemma w_spells o fs s c : wspells o fs ->
  exists f fs' t p, fs = f :: fs' /\ as_tag f = Some t /\ scores_step t s = Some p /\ p (fs' ++ c) = QOk (w_eff s o) c.
Proof.
  intros H. destruct H as [a b f g h Hw Ha Hb|f Hw];
    (pose proof (word_tag _ _ Hw eq_refl) as T; eexists f, _, _, _; split; [reflexivity|]; split; [exact T|]; split; [reflexivity|]).
  - unfold qmap, qbind. cbn [app next]. rewrite (read_int_arg _ _ Ha). cbn [next]. by rewrite (read_int_arg _ _ Hb).
  - done.
Qed.
Lemma w_eff_meaning os s : fold_left w_eff os s = (last_some wscores_of (fst s) os, last_some wlimit_of (snd s) os).
Proof. revert s; induction os as [|o os IH]; intros s; [by destruct s|]. cbn [fold_left last_some]. by rewrite IH. Qed.
Lemma w_trailing os fss : Forall2 wspells os fss ->
  trailing scores_step (false, None) (concat fss) = QOk (last_some wscores_of false os, last_some wlimit_of None os) [].
Proof.
  intros H. unfold trailing, qbind. rewrite <- (app_nil_r (concat fss)).
  rewrite (options_fold scores_step wspells w_eff (fun t s p E => suffixing_shrinks _ (scores_step_suff t s p E))
    (fun o fs s c => w_spells o fs s c) os fss _ [] (QOk (fold_left w_eff os (false, None), None) [])); [|done|done].
  unfold qret. cbn [fst]. by rewrite w_eff_meaning.
Qed.
(** LIMIT alone *)
Definition l_eff (s : limit) (o : wopt) : limit := match wlimit_of o with Some l => l | None => s end.
Definition lspells (o : wopt) (fs : list frame) : Prop := wspells o fs /\ o <> WScores.
Lemma l_spells o fs s c : lspells o fs ->
  exists f fs' t p, fs = f :: fs' /\ as_tag f = Some t /\ limit_step t s = Some p /\ p (fs' ++ c) = QOk (l_eff s o) c.
Proof.
  intros [H N]. destruct H as [a b f g h Hw Ha Hb|f Hw]; [|done].
  pose proof (word_tag _ _ Hw eq_refl) as T; eexists f, _, _, _; split; [reflexivity|]; split; [exact T|]; split; [reflexivity|].
  unfold qmap, qbind. cbn [app next]. rewrite (read_int_arg _ _ Ha). cbn [next]. by rewrite (read_int_arg _ _ Hb).
Qed.
Lemma l_eff_meaning os s : fold_left l_eff os s = last_some wlimit_of s os.
Proof. revert s; induction os as [|o os IH]; intros s; [done|]. cbn [fold_left last_some]. by rewrite IH. Qed.
Lemma l_trailing os fss : Forall2 lspells os fss -> trailing limit_step None (concat fss) = QOk (last_some wlimit_of None os) [].
Proof.
  intros H. unfold trailing, qbind. rewrite <- (app_nil_r (concat fss)).
  rewrite (options_fold limit_step lspells l_eff (fun t s p E => suffixing_shrinks _ (limit_step_suff t s p E))
    (fun o fs s c => l_spells o fs s c) os fss _ [] (QOk (fold_left l_eff os None, None) [])); [|done|done].
  unfold qret. cbn [fst]. by rewrite l_eff_meaning.
Qed.
(** A flag, any number of times *)
Lemma flag_trailing w fs : ascii_text w = true -> lower w = w -> Forall (is_word w) fs ->
  trailing (flag_step w) false fs = QOk (negb (bool_decide (fs = []))) [].
Proof.
  intros U L F. assert (H : Forall2 (fun (_ : unit) fs => exists f, fs = [f] /\ is_word w f) (map (fun _ => tt) fs) (map (fun f => [f]) fs)).
  { induction F; constructor; eauto. }
  assert (C : concat (map (fun f => [f]) fs) ++ [] = fs) by (rewrite app_nil_r; clear; induction fs as [|? ? IH]; cbn; congruence).
  assert (K : optional (flag_step w) false (concat (map (fun f => [f]) fs) ++ []) =
    QOk (fold_left (fun (_ : bool) (_ : unit) => true) (map (fun _ => tt) fs) false, None) []).
  { apply (options_fold (flag_step w) (fun (_ : unit) fs => exists f, fs = [f] /\ is_word w f) (fun _ _ => true)
      (fun t s p E => suffixing_shrinks _ (flag_step_suff w t s p E))) with (os := map (fun _ => tt) fs); [|exact H|done].
    intros o gs s c (f & -> & W). pose proof (word_tag _ _ W U) as T. eexists f, _, _, _. split; [reflexivity|]. split; [exact T|].
    unfold flag_step, opt_flag. rewrite L, bool_decide_true by done. done. }
  rewrite C in K. unfold trailing, qbind. rewrite K. unfold qret. cbn [fst]. f_equal.
  destruct fs as [|f fs]; [done|]. cbn. clear. induction fs; [done|]. cbn. done.
Qed.
(** RESTORE *)
Definition t_eff (s : restore_opts) (o : topt) : restore_opts :=
  RestoreOpts (match treplace_of o with Some b => b | None => re_replace s end)
    (match tabsttl_of o with Some b => b | None => re_absttl s end)
    (match tidle_of o with Some b => b | None => re_idle s end) (match tfreq_of o with Some b => b | None => re_freq s end).
Lemma t_spells o fs s c : tspells o fs ->
  exists f fs' t p, fs = f :: fs' /\ as_tag f = Some t /\ restore_step t s = Some p /\ p (fs' ++ c) = QOk (t_eff s o) c.
Proof.
  intros H. destruct H as [f Hw|f Hw|n f g Hw Hn|n f g Hw Hn];
    (pose proof (word_tag _ _ Hw eq_refl) as T; eexists f, _, _, _; split; [reflexivity|]; split; [exact T|]; split; [reflexivity|]);
    try done; unfold qmap, qbind; cbn [app next]; by rewrite (count_arg _ _ Hn).
Qed.
Lemma t_eff_meaning os s : fold_left t_eff os s =
  RestoreOpts (last_some treplace_of (re_replace s) os) (last_some tabsttl_of (re_absttl s) os)
    (last_some tidle_of (re_idle s) os) (last_some tfreq_of (re_freq s) os).
Proof. revert s; induction os as [|o os IH]; intros s; [by destruct s|]. cbn [fold_left last_some]. by rewrite IH. Qed.
Lemma t_trailing os fss : Forall2 tspells os fss ->
  trailing restore_step (RestoreOpts false false None None) (concat fss) =
  QOk (RestoreOpts (last_some treplace_of false os) (last_some tabsttl_of false os) (last_some tidle_of None os) (last_some tfreq_of None os)) [].
Proof.
  intros H. unfold trailing, qbind. rewrite <- (app_nil_r (concat fss)).
  rewrite (options_fold restore_step tspells t_eff (fun t s p E => suffixing_shrinks _ (restore_step_suff t s p E))
    (fun o fs s c => t_spells o fs s c) os fss _ [] (QOk (fold_left t_eff os (RestoreOpts false false None None), None) [])); [|done|done].
  unfold qret. cbn [fst]. by rewrite t_eff_meaning.
Qed.
(** ZADD *)
Definition z_eff (s : zadd_opts) (o : zopt) : zadd_opts :=
  ZaddOpts (match znx_of o with Some e => e | None => zo_nx s end) (match zgl_of o with Some e => e | None => zo_gl s end)
    (zo_ch s || bool_decide (o = ZCh)) (zo_incr s || bool_decide (o = ZIncr)).
Lemma z_spells o fs s c : (exists f, fs = [f] /\ is_word (zword o) f) ->
  exists f fs' t p, fs = f :: fs' /\ as_tag f = Some t /\ zadd_step t s = Some p /\ p (fs' ++ c) = QOk (z_eff s o) c.
Proof.
  intros (f & -> & W). assert (U : ascii_text (zword o) = true) by (by destruct o). pose proof (word_tag _ _ W U) as T.
  destruct o; (eexists f, _, _, _; split; [reflexivity|]; split; [exact T|]; split; [reflexivity|]); unfold qret, z_eff; cbn; by rewrite ?orb_false_r, ?orb_true_r.
Qed.
Lemma z_eff_meaning os s : fold_left z_eff os s =
  ZaddOpts (last_some znx_of (zo_nx s) os) (last_some zgl_of (zo_gl s) os) (zo_ch s || bool_decide (ZCh ∈ os)) (zo_incr s || bool_decide (ZIncr ∈ os)).
Proof.
  assert (K : forall (o x : zopt) os, bool_decide (o = x) || bool_decide (x ∈ os) = bool_decide (x ∈ o :: os)).
  { intros o x os'. destruct (bool_decide_reflect (o = x)) as [->|N]; cbn [orb].
    - symmetry. apply bool_decide_true. by left.
    - apply bool_decide_ext. rewrite elem_of_cons. naive_solver. }
  revert s; induction os as [|o os IH]; intros s.
  - cbn. rewrite !orb_false_r. by destruct s.
  - cbn [fold_left last_some]. rewrite IH. unfold z_eff; cbn [zo_nx zo_gl zo_ch zo_incr]. rewrite <- !orb_assoc, !K. done.
Qed.
Lemma all_bytes (P : byte -> bool) : forallb (fun n => P (byte_of_N (N.of_nat n))) (seq 0 256) = true -> forall x, P x = true.
Proof.
  intros H x. rewrite forallb_forall in H. specialize (H (N.to_nat (Byte.to_N x))).
  assert (L : (Byte.to_N x < 256)%N) by (destruct x; vm_compute; reflexivity).
  rewrite N2Nat.id in H. assert (E : byte_of_N (Byte.to_N x) = x) by (apply to_N_inj; rewrite to_N_byte_of_N, N.mod_small; done).
  rewrite E in H. apply H. apply in_seq. lia.
Qed.
Lemma lower_letters c u : forallb (fun n => let x := byte_of_N (N.of_nat n) in
    negb (bool_decide (lower_byte x = c)) || bool_decide (x = c) || bool_decide (x = u)) (seq 0 256) = true ->
  forall x, lower_byte x = c -> x = c \/ x = u.
Proof.
  intros H x E. pose proof (all_bytes (fun x => negb (bool_decide (lower_byte x = c)) || bool_decide (x = c) || bool_decide (x = u)) H x) as K.
  cbn beta in K. rewrite (bool_decide_true (lower_byte x = c)) in K by done. cbn [negb orb] in K.
  apply orb_true_iff in K as [K|K]; apply bool_decide_eq_true in K; auto.
Qed.
Lemma option_no_float o b : lowercase b = zword o -> parse_f64 b = None.
Proof.
  intros E0. apply lowercase_no_k in E0; [|destruct o; apply (bool_decide_eq_true_1 _); vm_compute; reflexivity]. revert E0.
  assert (N : forall x, lower_byte x = x6e -> x = x6e \/ x = x4e) by (apply lower_letters; vm_compute; reflexivity).
  assert (X : forall x, lower_byte x = x78 -> x = x78 \/ x = x58) by (apply lower_letters; vm_compute; reflexivity).
  assert (G : forall x, lower_byte x = x67 -> x = x67 \/ x = x47) by (apply lower_letters; vm_compute; reflexivity).
  assert (T : forall x, lower_byte x = x74 -> x = x74 \/ x = x54) by (apply lower_letters; vm_compute; reflexivity).
  assert (L : forall x, lower_byte x = x6c -> x = x6c \/ x = x4c) by (apply lower_letters; vm_compute; reflexivity).
  assert (C : forall x, lower_byte x = x63 -> x = x63 \/ x = x43) by (apply lower_letters; vm_compute; reflexivity).
  assert (H : forall x, lower_byte x = x68 -> x = x68 \/ x = x48) by (apply lower_letters; vm_compute; reflexivity).
  assert (I : forall x, lower_byte x = x69 -> x = x69 \/ x = x49) by (apply lower_letters; vm_compute; reflexivity).
  assert (R : forall x, lower_byte x = x72 -> x = x72 \/ x = x52) by (apply lower_letters; vm_compute; reflexivity).
  intros E. destruct o; cbn in E; destruct b as [|x1 [|x2 [|x3 [|x4 [|x5 b]]]]]; try discriminate E; injection E; clear E; intros.
  all: repeat match goal with
    | K : lower_byte _ = x6e |- _ => apply N in K | K : lower_byte _ = x78 |- _ => apply X in K
    | K : lower_byte _ = x67 |- _ => apply G in K | K : lower_byte _ = x74 |- _ => apply T in K
    | K : lower_byte _ = x6c |- _ => apply L in K | K : lower_byte _ = x63 |- _ => apply C in K
    | K : lower_byte _ = x68 |- _ => apply H in K | K : lower_byte _ = x69 |- _ => apply I in K
    | K : lower_byte _ = x72 |- _ => apply R in K end.
  all: repeat match goal with H : _ \/ _ |- _ => destruct H as [->| ->] end; vm_compute; reflexivity.
Qed.
Lemma score_no_option f x t s : as_float f = Some x -> as_tag f = Some t -> zadd_step t s = None.
Proof.
  intros F T. assert (K : forall o, t <> zword o).
  { intros o ->. destruct f; cbn [as_float] in F; try discriminate F; unfold as_tag in T; cbn [as_str] in T; try discriminate T;
      match type of T with context [utf8_valid ?b] => destruct (utf8_valid b); [|discriminate F]; cbn [option_map] in T; injection T as T;
        rewrite (option_no_float o b T) in F; discriminate F end. }
  unfold zadd_step, opt_nx, opt_gl, opt_flag.
  rewrite (bool_decide_false (t = bs "nx")) by apply (K ZNx). rewrite (bool_decide_false (t = bs "xx")) by apply (K ZXx).
  rewrite (bool_decide_false (t = bs "gt")) by apply (K ZGt). rewrite (bool_decide_false (t = bs "lt")) by apply (K ZLt).
  rewrite (bool_decide_false (t = bs "ch")) by apply (K ZCh). rewrite (bool_decide_false (t = bs "incr")) by apply (K ZIncr). done.
Qed.
Lemma z_optional os fs f x c : Forall2 (fun o f => is_word (zword o) f) os fs -> as_float f = Some x ->
  optional zadd_step (ZaddOpts NxXx_None GtLt_None false false) (fs ++ f :: c) =
  QOk (ZaddOpts (last_some znx_of NxXx_None os) (last_some zgl_of GtLt_None os) (bool_decide (ZCh ∈ os)) (bool_decide (ZIncr ∈ os)), Some f) c.
Proof.
  intros F X. assert (H : Forall2 (fun o fs => exists f, fs = [f] /\ is_word (zword o) f) os (map (fun f => [f]) fs)).
  { induction F; constructor; eauto. }
  assert (C : concat (map (fun f => [f]) fs) = fs) by (clear; induction fs as [|? ? IH]; cbn; congruence).
  rewrite <- C.
  apply (options_fold zadd_step _ z_eff (fun t s p E => suffixing_shrinks _ (zadd_step_suff t s p E)) (fun o fs s c => z_spells o fs s c) os _ _ (f :: c) _ H).
  rewrite z_eff_meaning. cbn [zo_nx zo_gl zo_ch zo_incr orb]. unfold optional. cbn [length options].
  destruct (as_tag f) as [t|] eqn:T; [|done]. by rewrite (score_no_option f x t _ X T).
Qed.
